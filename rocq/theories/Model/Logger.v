(** The log file: src/logger.c. *)
From Coq Require Import ZArith NArith Bool List Ascii String Arith.
From Verif.Base Require Import CInt CStr CMem.
From Verif.Model Require Import Messages.
Import ListNotations.
Open Scope list_scope.
Open Scope nat_scope.

(** src/logger.c:11. *)
Definition log_buffer_size : nat := N.to_nat 8192.

(** snprintf(b, size, ...) where the formatted text is [text]: at most
    [size - 1] bytes and a NUL are stored; the result is the length of the
    whole text, or -1 if that is no int (EOVERFLOW). *)
Definition snprintf (b : block) (size : nat) (text : str) : cres (block * Z) :=
  let n := Z.of_nat (List.length text) in
  let r := if (n <=? INT_MAX)%Z then n else (-1)%Z in
  match size with
  | 0 => Val (b, r)
  | S room => cbind (store b 0 (terminated (firstn room text))) (fun b => Val (b, r))
  end.

(** src/logger.c:31: the names of the levels.  Another index reads outside the
    array. *)
Definition level_note (level : Z) : cres str :=
  if (level =? 0)%Z then Val (lit "FATAL")
  else if (level =? 1)%Z then Val (lit "WARNING")
  else if (level =? 2)%Z then Val (lit "INFO")
  else if (level =? 3)%Z then Val (lit "DEBUG")
  else UB.

(** The static buffers of src/logger.c:36-39, with what the previous call left
    in them. *)
Record buffers := mkBuf { b_buffer : block; b_log_buffer : block; b_datetime : block; b_line_str : block }.

(** Static objects start as zeros. *)
Definition fresh_buffers : buffers :=
  mkBuf (zeroed log_buffer_size) (zeroed log_buffer_size) (zeroed 100) (zeroed 20).

(** One call of [log_write]: the arguments, with [c_text] for what the format
    and its arguments print, and [c_date] for what
    strftime("%Y-%m-%d %H:%M:%S", localtime(now)) prints ([None] if localtime
    returns a null pointer). *)
Record call := mkCall { c_level : Z; c_source : str; c_line : Z; c_text : str; c_date : option str }.

(** strftime(b, max, ...): stores the text and a NUL if they fit into [max]
    bytes; otherwise the contents of [b] are unspecified. *)
Definition strftime (b : block) (max : nat) (date : option str) : cres block :=
  match date with
  | Some d => if List.length d <? max then store b 0 (terminated d) else UB
  | None => UB
  end.

(** write(fd, buffer, count) reads [count] bytes of the buffer.  A negative
    [count] becomes a huge [size_t]. *)
Fixpoint read_bytes (b : block) (n : nat) {struct n} : cres str :=
  match n, b with
  | 0, _ => Val []
  | S n, Some c :: b => cbind (read_bytes b n) (fun s => Val (c :: s))
  | S n, _ => UB
  end.

Definition write_bytes (b : block) (count : Z) : cres str :=
  if (count <? 0)%Z then UB
  else if (Z.of_nat (List.length b) <? count)%Z then UB
  else read_bytes b (Z.to_nat count).

(** src/logger.c:41-56: the bytes that [write] is given, and the buffers
    afterwards. *)
Definition log_data (s : buffers) (c : call) : cres (str * buffers) :=
  cbind (strftime (b_datetime s) 99 (c_date c)) (fun datetime =>
  cbind (snprintf (b_line_str s) 19 (fmt_d (c_line c))) (fun '(line_str, _) =>
  cbind (snprintf (b_log_buffer s) log_buffer_size (c_text c)) (fun '(log_buffer, _) =>
  cbind (level_note (c_level c)) (fun note =>
  cbind (cstr datetime) (fun d =>
  cbind (cstr line_str) (fun l =>
  cbind (cstr log_buffer) (fun m =>
  cbind (snprintf (b_buffer s) log_buffer_size
           (note ++ lit " [" ++ d ++ lit "] [" ++ c_source c ++ lit ":" ++ l ++ lit "]" ++ m ++ ["010"%char]))
    (fun '(buffer, count) =>
  cbind (write_bytes buffer count) (fun data =>
  Val (data, mkBuf buffer log_buffer datetime line_str)))))))))).

(** ** One process *)

Inductive lcall :=
| LFlockEx            (* flock(log_fd, LOCK_EX) *)
| LWrite (data : str) (* write(log_fd, buffer, count) *)
| LFlockUn            (* flock(log_fd, LOCK_UN) *)
| LStderr (text : str).

(** log_open, src/logger.c:14-20: what it prints if fopen fails. *)
Definition log_open (opens : bool) (filename : str) : list lcall :=
  if opens then [] else [LStderr (lit "can not open log file " ++ filename)].

(** log_write, src/logger.c:30-66: the calls it makes.  [opened] says that
    [log_fp] is not null, [locks] that flock succeeds, [writes] that write does
    not return -1. *)
Definition log_write (opened locks writes : bool) (s : buffers) (c : call) : cres (list lcall * buffers) :=
  if negb opened then Val ([LStderr (lit "can not open log file")], s)
  else
    cbind (log_data s c) (fun '(data, s) =>
    Val (if locks
         then if writes then [LFlockEx; LWrite data; LFlockUn]
              else [LFlockEx; LWrite data; LStderr (lit "write error")]
         else [LFlockEx; LStderr (lit "flock error")], s)).

(** ** Several processes

    [ofd p] is the open file description behind the [log_fp] of process [p]:
    each judger opens its own; a forked child shares its parent's.  An flock
    belongs to the description.  Appending is not assumed to be atomic: a write
    moves one byte at a time and may stop early. *)

Inductive pc :=
| Idle
| Locking (data : str)               (* before src/logger.c:55 *)
| Writing (moved : nat) (rest : str) (* in the write of line 56 *)
| Unlocking                          (* before line 60 *)
| Dead.

Record lstate := mkL { l_pc : nat -> pc; l_buf : nat -> buffers; l_lock : option nat; l_file : str }.

Definition set {A} (f : nat -> A) (p : nat) (x : A) : nat -> A := fun q => if q =? p then x else f q.

Inductive event :=
| Start (p : nat) (c : call)
| Locked (p : nat)
| LockFails (p : nat)
| Byte (p : nat)       (* one byte is appended *)
| Wrote (p : nat)      (* write returns, everything was appended *)
| Short (p : nat)      (* write returns after a part *)
| WriteFails (p : nat) (* write returns -1 *)
| Unlocked (p : nat)
| Killed (p : nat)
| Closed (o : nat).    (* the last descriptor of a description is closed *)

Section Processes.
Variable ofd : nat -> nat.

(** src/logger.c:30-66 as executed by many processes. *)
Inductive step (s : lstate) : event -> cres lstate -> Prop :=
| step_start p c data buf : l_pc s p = Idle -> log_data (l_buf s p) c = Val (data, buf) ->
    step s (Start p c) (Val (mkL (set (l_pc s) p (Locking data)) (set (l_buf s) p buf) (l_lock s) (l_file s)))
| step_undefined p c : l_pc s p = Idle -> log_data (l_buf s p) c = UB ->
    step s (Start p c) UB
| step_locked p data : l_pc s p = Locking data -> l_lock s = None \/ l_lock s = Some (ofd p) ->
    step s (Locked p) (Val (mkL (set (l_pc s) p (Writing 0 data)) (l_buf s) (Some (ofd p)) (l_file s)))
| step_lock_fails p data : l_pc s p = Locking data ->
    step s (LockFails p) (Val (mkL (set (l_pc s) p Idle) (l_buf s) (l_lock s) (l_file s)))
| step_byte p n b rest : l_pc s p = Writing n (b :: rest) ->
    step s (Byte p) (Val (mkL (set (l_pc s) p (Writing (S n) rest)) (l_buf s) (l_lock s) (l_file s ++ [b])))
| step_wrote p n : l_pc s p = Writing n [] ->
    step s (Wrote p) (Val (mkL (set (l_pc s) p Unlocking) (l_buf s) (l_lock s) (l_file s)))
| step_short p n b rest : l_pc s p = Writing n (b :: rest) ->
    step s (Short p) (Val (mkL (set (l_pc s) p Unlocking) (l_buf s) (l_lock s) (l_file s)))
| step_write_fails p rest : l_pc s p = Writing 0 rest ->
    step s (WriteFails p) (Val (mkL (set (l_pc s) p Idle) (l_buf s) (l_lock s) (l_file s)))
| step_unlocked p : l_pc s p = Unlocking ->
    step s (Unlocked p) (Val (mkL (set (l_pc s) p Idle) (l_buf s)
      (match l_lock s with Some o => if o =? ofd p then None else Some o | None => None end) (l_file s)))
| step_killed p : l_pc s p <> Dead ->
    step s (Killed p) (Val (mkL (set (l_pc s) p Dead) (l_buf s) (l_lock s) (l_file s)))
| step_closed o : (forall p, ofd p = o -> l_pc s p = Idle \/ l_pc s p = Dead) ->
    step s (Closed o) (Val (mkL (fun p => if ofd p =? o then Dead else l_pc s p) (l_buf s)
      (match l_lock s with Some o' => if o' =? o then None else Some o' | None => None end) (l_file s))).

Inductive exec (s : lstate) : list event -> lstate -> Prop :=
| exec_nil : exec s [] s
| exec_cons e s1 tr s2 : step s e (Val s1) -> exec s1 tr s2 -> exec s (e :: tr) s2.
End Processes.

(** The log holds [f0] and nobody is logging. *)
Definition quiet (f0 : str) : lstate := mkL (fun _ => Idle) (fun _ => fresh_buffers) None f0.

(** ** The calls in the program *)

(** src/runner.h:36-44: ERROR_EXIT(error_code) in the file [source] at [line]. *)
Definition error_exit_call (source : str) (line : Z) (date : option str) (error_code : string) : call :=
  mkCall 0 source line (lit "Error: " ++ lit error_code) date.

(** src/child.h:7-9: CHILD_ERROR_EXIT(error_code), where strerror(errno) is
    [reason]. *)
Definition child_error_exit_call (source : str) (line : Z) (date : option str) (reason : str) (error_code : string) : call :=
  mkCall 0 source line (lit "Error: System errno: " ++ reason ++ lit "; Internal errno: " ++ lit error_code) date.

(** The error codes these macros are used with: src/runner.c:39-87 and
    src/child.c:41-174. *)
Definition logged_codes : list string :=
  ["ROOT_REQUIRED"; "INVALID_CONFIG"; "FORK_FAILED"; "PTHREAD_FAILED"; "WAIT_FAILED"; "SETRLIMIT_FAILED"; "DUP2_FAILED";
   "SETUID_FAILED"; "LOAD_SECCOMP_FAILED"; "EXECVE_FAILED"]%string.
