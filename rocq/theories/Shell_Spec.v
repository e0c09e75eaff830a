(** What a method says and how it ends, from its input alone: no streams, no files. *)
From Coq Require Import Ascii String.
From Verif Require Import Base Shell_Model.
Local Open Scope list_scope.

Definition same_channel (a b : channel) : bool :=
  match a, b with Out, Out | Err, Err | Verbose, Verbose => true | _, _ => false end.
(** all that [p] writes to the channel [c], reading fields that end with [d] from [input] *)
Fixpoint says {A} (c : channel) (p : prog A) (d : ascii) (input : text) : text :=
  match p with
  | Done _ | Exit _ => []
  | Write c' t k => (if same_channel c c' then t else []) ++ says c k d input
  | Read k => let '(a, b) := field d input in says c (k a) d b
  end.
Fixpoint ends {A} (p : prog A) (d : ascii) (input : text) : ended A :=
  match p with
  | Done a => Returned a
  | Exit s => Exited s
  | Write _ _ k => ends k d input
  | Read k => let '(a, b) := field d input in ends (k a) d b
  end.
Definition status_of (e : ended (option Z)) : option Z := match e with Returned s => s | Exited s => Some s end.

(** Where the input comes from: with --input the named file, its fields ending with a comma; otherwise the keyboard, with lines. *)
Definition input_is (ino : text -> nat) (readable : nat -> bool) (cfg : io_config) (fs : nat -> option text) (kbd : text)
    (d : ascii) (input : text) : Prop :=
  match i_input cfg with
  | None => d = "010"%char /\ input = kbd
  | Some f => d = ","%char /\ fs (ino f) = Some input /\ readable (ino f) = true
  end.
(** the file that --verbose writes, if it can *)
Definition log_file (ino : text -> nat) (writable : nat -> bool) (cfg : io_config) (i : nat) : Prop :=
  exists f, i_log cfg = Some f /\ writable (ino f) = true /\ ino f = i.
(** the file that --output writes, if it can *)
Definition out_file (ino : text -> nat) (writable : nat -> bool) (cfg : io_config) (i : nat) : Prop :=
  exists f, i_output cfg = Some f /\ writable (ino f) = true /\ ino f = i.
(** what is kept of the old contents *)
Definition kept (cfg : io_config) (old : option text) : text :=
  if i_append cfg then match old with Some t => t | None => [] end else [].

(** the file that --input names *)
Definition in_file (ino : text -> nat) (cfg : io_config) (i : nat) : Prop := exists f, i_input cfg = Some f /\ ino f = i.
(** output, log and input are three different files *)
Definition separate (ino : text -> nat) (writable : nat -> bool) (cfg : io_config) : Prop := forall i,
  ~ (out_file ino writable cfg i /\ log_file ino writable cfg i) /\
  ~ (out_file ino writable cfg i /\ in_file ino cfg i) /\
  ~ (log_file ino writable cfg i /\ in_file ino cfg i).
