(** Model of the program around the methods: src/ecgen.c (init, quit, main), src/io/output.c:232-287 (the
    streams) and src/io/input.c (the reading of one field), over a small model of files.

    Not modelled: what argp does with the command line (see Cli_Model; here only what concerns the files),
    PARI's own start and end, allocation, errors while reading, directories (a path that cannot be opened
    for writing is one that is not [writable]), other processes. *)
From Coq Require Import Ascii String.
From Verif Require Import Base.
Local Open Scope nat_scope.
Local Open Scope list_scope.

Notation text := (list ascii).

(** The settings that concern files, src/misc/config.h:141-153: --output, --append, --input and the file
    given to --verbose. *)
Record io_config := mkIo { i_output : option text; i_append : bool; i_input : option text; i_log : option text }.

(** A FILE pointer: NULL, one of stdin (0), stdout (1) and stderr (2), or a file that was opened. *)
Inductive stream := SNull | SStd (n : nat) | SFile (k : nat).
(** An open file: at a position of the file numbered [i], or at its end. *)
Inductive handle := HWrite (i pos : nat) | HAppend (i : nat) | HRead (i pos : nat).
(** What must not happen: NULL or a closed stream given to the C library, a standard stream closed. *)
Inductive fault := OnNull | OnClosed (k : nat) | StdClosed.

Record world := mkWorld {
  files : nat -> option text;      (** by file number; [None]: no such file *)
  console : text; errors : text;   (** what was written to stdout and stderr *)
  keyboard : text;                 (** what stdin has still to offer *)
  handles : list (nat * handle);   (** the open files *)
  next : nat;
  writes : nat;                    (** the number of writes so far *)
  bad : list fault;
  g_out : stream; g_err : stream; g_verbose : stream; g_in : stream; g_delim : ascii }.
(** ** The C library *)
Section Shell.
Variable ino : text -> nat.            (** the file a path names; two paths may name the same file *)
Variable readable writable : nat -> bool.
Variable limit : nat -> option nat.    (** how many bytes the n-th write can place; [None]: all *)
Variable reason : text.                (** what perror adds *)

Definition with_files f w := mkWorld f (console w) (errors w) (keyboard w) (handles w) (next w) (writes w) (bad w) (g_out w) (g_err w) (g_verbose w) (g_in w) (g_delim w).
Definition with_console c w := mkWorld (files w) c (errors w) (keyboard w) (handles w) (next w) (writes w) (bad w) (g_out w) (g_err w) (g_verbose w) (g_in w) (g_delim w).
Definition with_errors c w := mkWorld (files w) (console w) c (keyboard w) (handles w) (next w) (writes w) (bad w) (g_out w) (g_err w) (g_verbose w) (g_in w) (g_delim w).
Definition with_keyboard c w := mkWorld (files w) (console w) (errors w) c (handles w) (next w) (writes w) (bad w) (g_out w) (g_err w) (g_verbose w) (g_in w) (g_delim w).
Definition with_handles h w := mkWorld (files w) (console w) (errors w) (keyboard w) h (next w) (writes w) (bad w) (g_out w) (g_err w) (g_verbose w) (g_in w) (g_delim w).
Definition with_next n w := mkWorld (files w) (console w) (errors w) (keyboard w) (handles w) n (writes w) (bad w) (g_out w) (g_err w) (g_verbose w) (g_in w) (g_delim w).
Definition with_writes n w := mkWorld (files w) (console w) (errors w) (keyboard w) (handles w) (next w) n (bad w) (g_out w) (g_err w) (g_verbose w) (g_in w) (g_delim w).
Definition blame f w := mkWorld (files w) (console w) (errors w) (keyboard w) (handles w) (next w) (writes w) (bad w ++ [f]) (g_out w) (g_err w) (g_verbose w) (g_in w) (g_delim w).
Definition set_out s w := mkWorld (files w) (console w) (errors w) (keyboard w) (handles w) (next w) (writes w) (bad w) s (g_err w) (g_verbose w) (g_in w) (g_delim w).
Definition set_err s w := mkWorld (files w) (console w) (errors w) (keyboard w) (handles w) (next w) (writes w) (bad w) (g_out w) s (g_verbose w) (g_in w) (g_delim w).
Definition set_verbose s w := mkWorld (files w) (console w) (errors w) (keyboard w) (handles w) (next w) (writes w) (bad w) (g_out w) (g_err w) s (g_in w) (g_delim w).
Definition set_in s d w := mkWorld (files w) (console w) (errors w) (keyboard w) (handles w) (next w) (writes w) (bad w) (g_out w) (g_err w) (g_verbose w) s d.

Definition put_file (i : nat) (t : text) (w : world) : world := with_files (fun j => if j =? i then Some t else files w j) w.
Fixpoint lookup (k : nat) (l : list (nat * handle)) : option handle :=
  match l with [] => None | (j, h) :: l => if j =? k then Some h else lookup k l end.
Definition drop (k : nat) (l : list (nat * handle)) : list (nat * handle) := filter (fun p => negb (fst p =? k)) l.
Definition set_handle (k : nat) (h : handle) (w : world) : world := with_handles ((k, h) :: drop k (handles w)) w.
Definition opened (h : handle) (w : world) : stream * world := (SFile (next w), with_next (S (next w)) (with_handles ((next w, h) :: handles w) w)).

Inductive mode := ToWrite | ToAppend | ToRead.
(** fopen *)
Definition fopen (path : text) (m : mode) (w : world) : stream * world :=
  let i := ino path in
  match m with
  | ToWrite => if writable i then opened (HWrite i 0) (put_file i [] w) else (SNull, w)
  | ToAppend =>
      if writable i then opened (HAppend i) (match files w i with Some _ => w | None => put_file i [] w end) else (SNull, w)
  | ToRead => match files w i with Some _ => if readable i then opened (HRead i 0) w else (SNull, w) | None => (SNull, w) end
  end.
(** fclose *)
Definition fclose (s : stream) (w : world) : world :=
  match s with
  | SNull => blame OnNull w
  | SStd _ => blame StdClosed w
  | SFile k => match lookup k (handles w) with Some _ => with_handles (drop k (handles w)) w | None => blame (OnClosed k) w end
  end.
(** [t] written at [pos] over [old]; a gap is filled with zero bytes *)
Definition overwrite (old : text) (pos : nat) (t : text) : text :=
  firstn pos old ++ repeat zero (pos - length old) ++ t ++ skipn (pos + length t) old.
(** fprintf on an unbuffered stream; its result is never looked at in src *)
Definition fprintf (s : stream) (t : text) (w : world) : world :=
  let t := match limit (writes w) with Some n => firstn n t | None => t end in
  let w := with_writes (S (writes w)) w in
  match s with
  | SNull => blame OnNull w
  | SStd 1 => with_console (console w ++ t) w
  | SStd 2 => with_errors (errors w ++ t) w
  | SStd _ => w
  | SFile k =>
      match lookup k (handles w) with
      | Some (HWrite i pos) =>
          let old := match files w i with Some c => c | None => [] end in
          set_handle k (HWrite i (pos + length t)) (put_file i (overwrite old pos t) w)
      | Some (HAppend i) =>
          let old := match files w i with Some c => c | None => [] end in put_file i (old ++ t) w
      | Some (HRead _ _) => w
      | None => blame (OnClosed k) w
      end
  end.
(** setvbuf( s, NULL, _IONBF, 0 ) *)
Definition setvbuf (s : stream) (w : world) : world :=
  match s with
  | SNull => blame OnNull w
  | SStd _ => w
  | SFile k => match lookup k (handles w) with Some _ => w | None => blame (OnClosed k) w end
  end.
(** perror *)
Definition perror (m : string) (w : world) : world := fprintf (SStd 2) (list_ascii_of_string m ++ reason) w.
(** getdelim: what is read up to and with the delimiter, and what is left *)
Fixpoint field (d : ascii) (t : text) : text * text :=
  match t with
  | [] => ([], [])
  | c :: t => if Ascii.eqb c d then ([c], t) else let '(a, b) := field d t in (c :: a, b)
  end.
Definition getdelim (s : stream) (d : ascii) (w : world) : text * world :=
  match s with
  | SNull => ([], blame OnNull w)
  | SStd 0 => let '(a, b) := field d (keyboard w) in (a, with_keyboard b w)
  | SStd _ => ([], w)
  | SFile k =>
      match lookup k (handles w) with
      | Some (HRead i pos) =>
          let a := fst (field d (skipn pos (match files w i with Some c => c | None => [] end))) in
          (a, set_handle k (HRead i (pos + length a)) w)
      | Some _ => ([], w)
      | None => ([], blame (OnClosed k) w)
      end
  end.

(** ** src/io/output.c and src/io/input.c *)

(** src/io/output.c:235-245 *)
Definition open_output (cfg : io_config) (w : world) : world :=
  match i_output cfg with
  | Some f =>
      let '(s, w) := fopen f (if i_append cfg then ToAppend else ToWrite) w in
      match s with SNull => perror "Failed to open output file.: " (set_out (SStd 1) w) | _ => set_out s w end
  | None => set_out (SStd 1) w
  end.
(** src/io/output.c:250-259 *)
Definition open_log (cfg : io_config) (w : world) : world :=
  match i_log cfg with
  | Some f =>
      let '(s, w) := fopen f ToWrite w in
      match s with SNull => perror "Failed to open verbose output file.: " (set_verbose (SStd 2) w) | _ => set_verbose s w end
  | None => set_verbose (SStd 2) w
  end.
(** src/io/output.c:232-271; json_set_allocation_functions and the format do not concern files *)
Definition output_init (cfg : io_config) (w : world) : world :=
  let w := open_output cfg w in
  let w := setvbuf (g_out w) w in
  let w := set_err (SStd 2) w in
  let w := setvbuf (g_err w) w in
  let w := open_log cfg w in
  setvbuf (g_verbose w) w.
(** src/io/output.c:273-287 *)
Definition is_std (s : stream) : bool := match s with SStd _ => true | _ => false end.
Definition output_quit (w : world) : world :=
  let w := if is_std (g_out w) then w else fclose (g_out w) w in
  let w := if is_std (g_err w) then w else fclose (g_err w) w in
  if is_std (g_verbose w) then w else fclose (g_verbose w) w.
(** src/io/input.c:96-109 *)
Definition input_init (cfg : io_config) (w : world) : bool * world :=
  match i_input cfg with
  | Some f =>
      let '(s, w) := fopen f ToRead w in
      let w := set_in s ","%char w in
      match s with SNull => (false, perror "Failed to open input file.: " w) | _ => (true, w) end
  | None => (true, set_in (SStd 0) "010"%char w)
  end.
(** src/io/input.c:111-115 *)
Definition input_quit (w : world) : world :=
  match g_in w with SNull => w | SStd 0 => w | s => fclose s w end.

(** ** A method: what it does to the streams *)

Inductive channel := Out | Err | Verbose.
(** [Done]: the method returns; [Exit]: exit is called inside *)
Inductive prog (A : Type) :=
| Done (a : A) | Exit (status : Z)
| Write (c : channel) (t : text) (k : prog A)
| Read (k : text -> prog A).   (** getdelim; the empty text at the end of the file *)
Arguments Done {A}. Arguments Exit {A}. Arguments Write {A}. Arguments Read {A}.
Fixpoint then_ {A B} (p : prog A) (f : A -> prog B) : prog B :=
  match p with
  | Done a => f a | Exit s => Exit s
  | Write c t k => Write c t (then_ k f)
  | Read k => Read (fun t => then_ (k t) f)
  end.
Definition channel_stream (c : channel) (w : world) : stream :=
  match c with Out => g_out w | Err => g_err w | Verbose => g_verbose w end.
Inductive ended (A : Type) := Returned (a : A) | Exited (status : Z).
Arguments Returned {A}. Arguments Exited {A}.
Fixpoint run {A} (p : prog A) (w : world) : world * ended A :=
  match p with
  | Done a => (w, Returned a)
  | Exit s => (with_handles [] w, Exited s)   (** the C library closes the files *)
  | Write c t k => run k (fprintf (channel_stream c w) t w)
  | Read k => let '(t, w) := getdelim (g_in w) (g_delim w) w in run (k t) w
  end.

(** ** src/ecgen.c *)

Definition EXIT_FAILURE : Z := 1%Z.
Definition no_seadata : text := list_ascii_of_string "seadata not found, this will probably take quite some time." ++ ["010"%char].
(** src/ecgen.c:55-94; random_init and timeout_init return true (src/util/random.c:38-42,
    src/util/timeout.c:34-45) *)
Definition init (cfg : io_config) (seadata : bool) (w : world) : bool * world :=
  let w := if seadata then w else fprintf (SStd 2) no_seadata w in
  input_init cfg (output_init cfg w).
(** src/ecgen.c:96-105 *)
Definition quit (w : world) : world := input_quit (output_quit w).
(** src/ecgen.c:110-135: the world and the exit status. [regs]: cli_init succeeds (src/io/cli.c:100-114);
    [seadata]: PARI finds its data; [method]: cm_do, invalid_do or exhaustive_do; the status
    [None] stands for a method whose model ran out of fuel *)
Definition main (regs : bool) (cfg : io_config) (seadata : bool) (method : prog (option Z)) (w : world) : world * option Z :=
  if negb regs then (quit w, Some EXIT_FAILURE)
  else
    let '(ok, w) := init cfg seadata w in
    if negb ok then (quit w, Some EXIT_FAILURE)
    else let '(w, e) := run method w in
         match e with Returned s => (quit w, s) | Exited s => (w, Some s) end.
End Shell.
Arguments Done {A}. Arguments Exit {A}. Arguments Write {A}. Arguments Read {A}.
Arguments Returned {A}. Arguments Exited {A}.

(** The start: nothing open, all pointers NULL (they have static storage). *)
Definition fresh (fs : nat -> option text) (kbd : text) : world :=
  mkWorld fs [] [] kbd [] 0 0 [] SNull SNull SNull SNull zero.

(** ** The exhaustive and the complex multiplication method *)
Section Generate.
Context {C : Type}.
Variable show : C -> text.
(** src/exhaustive/exhaustive.c:472: the generation of the i-th curve; it may read and report *)
Variable gen : Z -> prog (option C).
Local Open Scope Z_scope.
(** src/exhaustive/exhaustive.c:469-484 from the i-th curve on *)
Fixpoint generate_from (fuel : nat) (i count : Z) : prog (option Z) :=
  if i <? u64 count then
    match fuel with
    | O => Done None
    | S fuel =>
        then_ (gen i) (fun r =>
          match r with
          | None => Done (Some 1)
          | Some c =>
              Write Out (show c)
                (if negb (i =? u64 (count - 1)) then Write Out [","; "010"]%char (generate_from fuel (u64 (i + 1)) count)
                 else generate_from fuel (u64 (i + 1)) count)
          end)
    end
  else Done (Some 0).
(** src/exhaustive/exhaustive.c:466-488; [None]: the fuel did not suffice *)
Definition exhaustive_generate (fuel : nat) (count : Z) : prog (option Z) :=
  Write Out ["["; "010"]%char (then_ (generate_from fuel 0 count) (fun r => Write Out ["]"; "010"]%char (Done r))).
End Generate.
