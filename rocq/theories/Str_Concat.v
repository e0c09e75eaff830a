(** C57: str_concat, src/util/str.c:65-67. *)
From Coq Require Import Ascii String.
From Verif Require Import Base Str_Model Str_Proofs Str_Props.
Local Open Scope nat_scope.
Local Open Scope list_scope.

(** str_concat gives the strings one after the other with a NUL at the end, also for no strings at all; a NULL entry counts as
    the empty string. *)
Theorem C57_concat : forall l, Forall nonul (map text l) ->
  (Z.of_nat (List.length (List.concat (map text l))) < max_alloc)%Z -> (Z.of_nat (List.length l) < 2 ^ 63)%Z ->
  str_concat l = Ok (List.concat (map text l) ++ [zero]).
Proof.
  intros l N A L. assert (J : forall t, joined [] t = List.concat t).
  { induction t as [|s [|s2 t] IH]; [reflexivity|symmetry; apply app_nil_r|]. change (s ++ joined [] (s2 :: t) = s ++ List.concat (s2 :: t)). rewrite IH. reflexivity. }
  destruct l as [|s l]; [reflexivity|]. unfold str_concat. rewrite <- J in A |- *.
  exact (C57_join_partial None (s :: l) ltac:(discriminate) (Forall_nil _) N A L).
Qed.
Print Assumptions C57_concat.
Example C57_concat_ex : let l := [Some (list_ascii_of_string "0x"); None; Some (list_ascii_of_string "1f")] in
  Forall nonul (map text l) /\ str_concat l = Ok (list_ascii_of_string "0x1f" ++ [zero]).
Proof. split; [repeat constructor; discriminate|vm_compute; reflexivity]. Qed.
