(** C10, C11: the bundled SHA-1. *)
From Verif Require Import Base Sha1_Spec Sha1_Model Sha1_Proofs.
Local Open Scope nat_scope.

Definition bytes (m : list N) : Prop := Forall (fun x => (x < 256)%N) m.

(** ** C10: the digest is the one FIPS 180-1 defines, for every message (and the
    message length counter wraps only at 2^64 bits, as in [Sha1_Spec.padded]). *)
Theorem C10_is_sha1 : forall m, bytes m ->
  exists d, sha1_msg m = Ok d /\ length d = 20 /\ bytes d /\ bits_of_bytes d = sha1 (bits_of_bytes m).
Proof. exact sha1_msg_ok. Qed.
Print Assumptions C10_is_sha1.
(** "abc" of FIPS 180-1 appendix A, and the 56-byte message of appendix B that
    needs a second block for its padding. *)
Example C10_abc : exists d, sha1_msg [97; 98; 99]%N = Ok d /\
  d = [0xa9;0x99;0x3e;0x36;0x47;0x06;0x81;0x6a;0xba;0x3e;0x25;0x71;0x78;0x50;0xc2;0x6c;0x9c;0xd0;0xd8;0x9d]%N /\
  bits_of_bytes d = sha1 (bits_of_bytes [97; 98; 99]%N).
Proof. eexists; split; [vm_compute; reflexivity|split; [reflexivity|vm_compute; reflexivity]]. Qed.
Example C10_two_blocks :
  sha1_msg (concat (map (fun i => [97 + i; 98 + i; 99 + i; 100 + i]) [0;1;2;3;4;5;6;7;8;9;10;11;12;13]))%N =
  Ok [0x84;0x98;0x3e;0x44;0x1c;0x3b;0xd2;0x6e;0xba;0xae;0x4a;0xa1;0xf9;0x51;0x29;0xe5;0xe5;0x46;0x70;0xf1]%N.
Proof. vm_compute. reflexivity. Qed.

(** Finishing leaves a freshly initialised context, so contexts can be reused. *)
Theorem C10_final_reinitialises : forall pieces, Forall bytes pieces ->
  exists c d, updates SHA1_Init pieces = Ok c /\ SHA1_Final c = Ok (d, SHA1_Init).
Proof. exact final_reinit. Qed.
Print Assumptions C10_final_reinitialises.

(** ** C11 *)
Theorem C11_split_independent : forall ps qs, Forall bytes ps -> Forall bytes qs ->
  concat ps = concat qs -> sha1_pieces ps = sha1_pieces qs.
Proof. exact pieces_indep. Qed.
Print Assumptions C11_split_independent.
Example C11_ex : sha1_pieces [[1; 2]; []; [3]; [4; 5; 6]]%N = sha1_pieces [[1; 2; 3; 4; 5]; [6]]%N /\
  exists d, sha1_pieces [[1; 2; 3; 4; 5]; [6]]%N = Ok d.
Proof. split; [vm_compute; reflexivity|eexists; vm_compute; reflexivity]. Qed.
