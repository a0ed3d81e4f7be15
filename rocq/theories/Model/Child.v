(** src/child.c: [child_process] over a model of the kernel state of the new
    process.  Every call that can fail asks an oracle ([ce_ok n] for the n-th
    call), so the theorems hold for every pattern of failures. *)
From Coq Require Import ZArith Bool List String.
From Verif.Base Require Import CInt CStr.
From Verif.Model Require Import Config Runner Seccomp.
Import ListNotations.
Open Scope Z_scope.

(** ** Kernel state of the process *)

Inductive omode : Type := MRead | MWrite | MAppend | MOther.

(** An open file description.  [of_id] identifies it: two descriptors share the
    offset iff they have the same [of_id]. *)
Record ofile : Type := mkOf { of_id : nat; of_path : str; of_mode : omode }.

Inductive resource : Type := RStack | RAs | RCpu | RNproc | RFsize.

(** Real, effective, saved user and group ids and supplementary groups. *)
Record cred : Type := mkCred {
  ruid : Z; euid : Z; suid : Z; rgid : Z; egid : Z; sgid : Z; groups : list Z }.

(** What the process did, most recent last. *)
Inductive cevent : Type :=
| EvRlimit (r : resource) (v : Z)
| EvOpen (id : nat) (path : str) (m : omode)
| EvDup2 (old new : nat)
| EvSetgid (g : Z)
| EvSetgroups (gs : list Z)
| EvSetuid (u : Z)
| EvFilter (f : filter)
| EvLog (code : Z)         (* the log line was completely handed to write *)
| EvFclose (id : nat)
| EvExec.

Record kstate : Type := mkK {
  k_fds : list (option ofile);         (* descriptor table *)
  k_next : nat;                        (* next fresh open file description *)
  k_rlim : resource -> Z * Z;          (* soft, hard *)
  k_cred : cred;
  k_filter : list filter;              (* loaded seccomp filters *)
  k_calls : nat;                       (* fallible calls so far *)
  k_trace : list cevent
}.

(** What does not depend on the judger: results of calls, inherited state. *)
Record child_env : Type := mkCE {
  ce_ok : nat -> bool;            (* does the n-th call succeed *)
  ce_seccomp_ok : nat -> bool;    (* does the n-th libseccomp call succeed *)
  ce_has_execveat : bool;         (* __NR_execveat defined at build time *)
  ce_exe_ptr : Z;                 (* value of the pointer _config->exe_path *)
  ce_usr1_default : bool;         (* SIGUSR1 neither ignored nor blocked *)
  ce_xfsz_default : bool;         (* SIGXFSZ neither ignored nor blocked *)
  ce_log_size : Z;                (* size of the log file *)
  ce_log_regular : bool;          (* the log file is a regular file *)
  ce_libc_calls : list syscall    (* calls made by time/localtime/strerror *)
}.

(** How the new process continues: it became the program, it was terminated by
    a signal, it exited, or it executed undefined behaviour. *)
Inductive child_end : Type :=
| CExec (path : str) (argv envp : list cell) (k : kstate)
| CKilled (sig : Z) (k : kstate)
| CExit (code : Z) (k : kstate)
| CUB.

Inductive step (A : Type) : Type :=
| Go (a : A) (k : kstate)
| Stop (e : child_end).
Arguments Go {A} a k.
Arguments Stop {A} e.

Definition M (A : Type) : Type := kstate -> step A.
Definition ret {A} (a : A) : M A := fun k => Go a k.
Definition bind {A B} (m : M A) (f : A -> M B) : M B :=
  fun k => match m k with Go a k' => f a k' | Stop e => Stop e end.
Notation "x <- m ;; f" := (bind m (fun x => f)) (at level 61, m at next level, right associativity).
Notation "m ;;; f" := (bind m (fun _ => f)) (at level 61, right associativity).

Definition get : M kstate := fun k => Go k k.
Definition emit (ev : cevent) : M unit := fun k =>
  Go tt (mkK (k_fds k) (k_next k) (k_rlim k) (k_cred k) (k_filter k) (k_calls k) (k_trace k ++ [ev])).

(** Strictest action of the loaded filters (at most one here). *)
Fixpoint filters_action (fs : list filter) (sc : syscall) : action :=
  match fs with
  | [] => ActAllow
  | f :: rest =>
      match filter_action f sc with
      | ActKill => ActKill
      | ActErrno e => match filters_action rest sc with ActKill => ActKill | _ => ActErrno e end
      | ActAllow => filters_action rest sc
      end
  end.

Definition sys0 (nm : string) : syscall := mkSys true nm (fun _ => 0).

Section Child.
Variable env : child_env.

(** A system call: filtered, then decided by the oracle.  The child is
    single-threaded, so the KILL action terminates it with SIGSYS. *)
Definition call (sc : syscall) : M bool := fun k =>
  let k' := mkK (k_fds k) (k_next k) (k_rlim k) (k_cred k) (k_filter k) (S (k_calls k)) (k_trace k) in
  match filters_action (k_filter k) sc with
  | ActKill => Stop (CKilled SIGSYS k')
  | ActErrno _ => Go false k'
  | ActAllow => Go (ce_ok env (k_calls k)) k'
  end.

(** A call that cannot fail once it is let through by the filter. *)
Definition call_sure (sc : syscall) : M bool := fun k =>
  let k' := mkK (k_fds k) (k_next k) (k_rlim k) (k_cred k) (k_filter k) (S (k_calls k)) (k_trace k) in
  match filters_action (k_filter k) sc with
  | ActKill => Stop (CKilled SIGSYS k')
  | ActErrno _ => Go false k'
  | ActAllow => Go true k'
  end.

(** ** Calls that change the kernel state *)

Definition set_fds (fds : list (option ofile)) (next : nat) : M unit := fun k =>
  Go tt (mkK fds next (k_rlim k) (k_cred k) (k_filter k) (k_calls k) (k_trace k)).
Definition set_cred (c : cred) : M unit := fun k =>
  Go tt (mkK (k_fds k) (k_next k) (k_rlim k) c (k_filter k) (k_calls k) (k_trace k)).

Definition res_eqb (a b : resource) : bool :=
  match a, b with
  | RStack, RStack | RAs, RAs | RCpu, RCpu | RNproc, RNproc | RFsize, RFsize => true
  | _, _ => false
  end.

(** setrlimit with rlim_cur = rlim_max = v. *)
Definition setrlimit (r : resource) (v : Z) : M bool :=
  ok <- call (sys0 "prlimit64") ;;
  if ok then
    (fun k => Go tt (mkK (k_fds k) (k_next k)
       (fun r' => if res_eqb r r' then (v, v) else k_rlim k r')
       (k_cred k) (k_filter k) (k_calls k) (k_trace k))) ;;;
    emit (EvRlimit r v) ;;; ret true
  else ret false.

(** Lowest free descriptor. *)
Fixpoint lowest_free (fds : list (option ofile)) : nat :=
  match fds with
  | [] => O
  | None :: _ => O
  | Some _ :: rest => S (lowest_free rest)
  end.

(** [fds] with descriptor [n] set to [x]. *)
Fixpoint fd_set (fds : list (option ofile)) (n : nat) (x : option ofile) : list (option ofile) :=
  match n, fds with
  | O, [] => [x]
  | O, _ :: rest => x :: rest
  | S n', [] => None :: fd_set [] n' x
  | S n', y :: rest => y :: fd_set rest n' x
  end.

Definition fd_get (fds : list (option ofile)) (n : nat) : option ofile :=
  match nth_error fds n with Some x => x | None => None end.

(** A FILE object: its identity and its descriptor. *)
Record stream : Type := mkStream { s_id : nat; s_fd : nat }.

(** fopen(path, "r") / fopen(path, "w"): lowest free descriptor, no O_CLOEXEC. *)
Definition fopen (path : str) (m : omode) : M (option stream) :=
  ok <- call (mkSys true "openat" (fun a => if Nat.eqb a 2 then (match m with MRead => 0 | _ => 577 end) else 0)) ;;
  if ok then
    k <- get ;;
    let fd := lowest_free (k_fds k) in
    let id := k_next k in
    set_fds (fd_set (k_fds k) fd (Some (mkOf id path m))) (S id) ;;;
    emit (EvOpen id path m) ;;;
    ret (Some (mkStream id fd))
  else ret None.

(** dup2(old, new): [new] becomes another name for the description of [old]. *)
Definition dup2 (old new : nat) : M bool :=
  k <- get ;;
  ok <- call (sys0 "dup2") ;;
  match fd_get (k_fds k) old with
  | Some o =>
      if ok then
        set_fds (fd_set (k_fds k) new (Some o)) (k_next k) ;;; emit (EvDup2 old new) ;;; ret true
      else ret false
  | None => ret false
  end.

(** setgid(2), setgroups(2), setuid(2): all ids for a privileged process
    (effective uid 0), otherwise only the effective id and only to the real or
    saved one; setgroups needs privilege. *)
Definition setgid (g : Z) : M bool :=
  k <- get ;;
  ok <- call (sys0 "setgid") ;;
  let c := k_cred k in
  if negb ok then ret false
  else if euid c =? 0 then
    set_cred (mkCred (ruid c) (euid c) (suid c) g g g (groups c)) ;;; emit (EvSetgid g) ;;; ret true
  else if (g =? rgid c) || (g =? sgid c) then
    set_cred (mkCred (ruid c) (euid c) (suid c) (rgid c) g (sgid c) (groups c)) ;;;
    emit (EvSetgid g) ;;; ret true
  else ret false.

Definition setgroups (gs : list Z) : M bool :=
  k <- get ;;
  ok <- call (sys0 "setgroups") ;;
  let c := k_cred k in
  if ok && (euid c =? 0) then
    set_cred (mkCred (ruid c) (euid c) (suid c) (rgid c) (egid c) (sgid c) gs) ;;;
    emit (EvSetgroups gs) ;;; ret true
  else ret false.

Definition setuid (u : Z) : M bool :=
  k <- get ;;
  ok <- call (sys0 "setuid") ;;
  let c := k_cred k in
  if negb ok then ret false
  else if euid c =? 0 then
    set_cred (mkCred u u u (rgid c) (egid c) (sgid c) (groups c)) ;;; emit (EvSetuid u) ;;; ret true
  else if (u =? ruid c) || (u =? suid c) then
    set_cred (mkCred (ruid c) u (suid c) (rgid c) (egid c) (sgid c) (groups c)) ;;;
    emit (EvSetuid u) ;;; ret true
  else ret false.

(** ** The failure path *)

Definition stderr_write : M unit := _ <- call (sys0 "write") ;; ret tt.

Fixpoint calls (l : list syscall) : M unit :=
  match l with
  | [] => ret tt
  | sc :: rest => _ <- call sc ;; calls rest
  end.

(** src/logger.c:30-65, [log_write] as executed in the child: the descriptor
    table may have changed since the log was opened.  write(2) on a regular
    file at or beyond RLIMIT_FSIZE raises SIGXFSZ.  The text and the buffers
    are modelled in Model/Logger.v. *)
Definition child_log_write (log_fp : option stream) (code : Z) : M unit :=
  match log_fp with
  | None => stderr_write
  | Some f =>
      calls (ce_libc_calls env) ;;;
      locked <- call (sys0 "flock") ;;
      if negb locked then stderr_write
      else
        written <- call (sys0 "write") ;;
        k <- get ;;
        match fd_get (k_fds k) (s_fd f) with
        | Some o =>
            match of_mode o with
            | MRead => stderr_write               (* EBADF; returns, lock kept *)
            | _ =>
                if Nat.eqb (of_id o) (s_id f) && ce_log_regular env
                   && (fst (k_rlim k RFsize) <=? ce_log_size env)
                then if ce_xfsz_default env
                     then (fun k => Stop (CKilled SIGXFSZ k))
                     else stderr_write            (* EFBIG *)
                else if written then emit (EvLog code) ;;; _ <- call (sys0 "flock") ;; ret tt
                else stderr_write
            end
        | None => stderr_write                    (* EBADF *)
        end
  end.

(** Streams that have been closed, by identity. *)
Fixpoint closed_ids (tr : list cevent) : list nat :=
  match tr with
  | [] => []
  | EvFclose i :: rest => i :: closed_ids rest
  | _ :: rest => closed_ids rest
  end.

(** fclose: closing a stream twice is undefined behaviour. *)
Definition fclose (f : stream) : M unit :=
  k <- get ;;
  if existsb (Nat.eqb (s_id f)) (closed_ids (k_trace k)) then (fun _ => Stop CUB)
  else
    _ <- call (sys0 "close") ;;
    set_fds (fd_set (k_fds k) (s_fd f) None) (k_next k) ;;;
    emit (EvFclose (s_id f)).

(** src/child.c:27-31 *)
Definition close_file (fp : option stream) : M unit :=
  match fp with None => ret tt | Some f => fclose f end.

(** Pointer comparison [output_file == error_file] (src/child.h:10). *)
Definition same_stream (a b : option stream) : bool :=
  match a, b with
  | None, None => true
  | Some x, Some y => Nat.eqb (s_id x) (s_id y)
  | _, _ => false
  end.

(** raise(SIGUSR1), then exit(EXIT_FAILURE) if the signal does not terminate
    the process.  Of the system calls made by glibc's raise only tgkill is
    modelled; sending a signal to itself cannot fail. *)
Definition raise_and_exit : M unit :=
  ok <- call_sure (sys0 "tgkill") ;;
  (fun k => if ok && ce_usr1_default env then Stop (CKilled SIGUSR1 k) else Stop (CExit 1 k)).

(** src/child.h:7-19, CHILD_ERROR_EXIT. *)
Definition child_error_exit {A} (log_fp input_file output_file error_file : option stream)
           (code : Z) : M A :=
  child_log_write log_fp code ;;;
  close_file input_file ;;;
  (if same_stream output_file error_file then close_file output_file
   else close_file output_file ;;; close_file error_file) ;;;
  raise_and_exit ;;;
  (fun _ => Stop CUB).  (* not reached *)

(** ** child_process *)

(** One [if (limit != UNLIMITED) setrlimit] block. *)
Definition limit_block {A} (log_fp : option stream) (active : bool) (r : resource) (v : cres Z)
           (k : M A) : M A :=
  if active then
    match v with
    | UB => fun _ => Stop CUB
    | Val z =>
        ok <- setrlimit r z ;;
        if ok then k else child_error_exit log_fp None None None SETRLIMIT_FAILED
    end
  else k.

Definition limited (z : Z) : bool := negb (z =? UNLIMITED).

(** src/child.c:60: [(rlim_t) ((max_cpu_time + 1000) / 1000)]; the addition is
    an int operation. *)
Definition cpu_limit_seconds (ms : Z) : cres Z :=
  cbind (int_op (ms + 1000)) (fun s => Val (cast_u64 (cdiv s 1000))).

(** src/child.c:37-82 *)
Definition set_limits {A} (c : config) (log_fp : option stream) (k : M A) : M A :=
  limit_block log_fp (limited (max_stack c)) RStack (Val (cast_u64 (max_stack c))) (
  limit_block log_fp ((memory_limit_check_only c =? 0) && limited (max_memory c)) RAs
              (Val (cast_u64 (cast_u64 (max_memory c) * 2))) (
  limit_block log_fp (limited (max_cpu_time c)) RCpu (cpu_limit_seconds (max_cpu_time c)) (
  limit_block log_fp (limited (max_process_number c)) RNproc (Val (cast_u64 (max_process_number c))) (
  limit_block log_fp (limited (max_output_size c)) RFsize (Val (cast_u64 (max_output_size c)))
  k)))).

(** src/child.c:84-96 *)
Definition redirect_input (c : config) (log_fp : option stream) : M (option stream) :=
  match input_path c with
  | None => ret None
  | Some p =>
      f <- fopen p MRead ;;
      match f with
      | None => child_error_exit log_fp None None None DUP2_FAILED
      | Some f =>
          ok <- dup2 (s_fd f) 0 ;;
          if ok then ret (Some f) else child_error_exit log_fp (Some f) None None DUP2_FAILED
      end
  end.

(** src/child.c:98-107 *)
Definition redirect_output (c : config) (log_fp input_file : option stream) : M (option stream) :=
  match output_path c with
  | None => ret None
  | Some p =>
      f <- fopen p MWrite ;;
      match f with
      | None => child_error_exit log_fp input_file None None DUP2_FAILED
      | Some f =>
          ok <- dup2 (s_fd f) 1 ;;
          if ok then ret (Some f) else child_error_exit log_fp input_file (Some f) None DUP2_FAILED
      end
  end.

(** src/child.c:109-126 *)
Definition redirect_error (c : config) (log_fp input_file output_file : option stream)
  : M (option stream) :=
  match error_path c with
  | None => ret None
  | Some p =>
      error_file <-
        match output_path c with
        | Some q =>
            if str_eqb q p then ret output_file
            else (f <- fopen p MWrite ;;
                  match f with
                  | None => child_error_exit log_fp input_file output_file None DUP2_FAILED
                  | Some f => ret (Some f)
                  end)
        | None =>
            f <- fopen p MWrite ;;
            match f with
            | None => child_error_exit log_fp input_file output_file None DUP2_FAILED
            | Some f => ret (Some f)
            end
        end ;;
      match error_file with
      | None => fun _ => Stop CUB   (* fileno(NULL); unreachable *)
      | Some f =>
          ok <- dup2 (s_fd f) 2 ;;
          if ok then ret (Some f)
          else child_error_exit log_fp input_file output_file (Some f) DUP2_FAILED
      end
  end.

(** The comparison [_config->gid != -1] is on unsigned 32-bit values. *)
Definition id_given (z : Z) : bool := negb (z =? cast_u32 (-1)).

(** src/child.c:128-137 *)
Definition drop_privileges {A} (c : config) (fail : M A) (k : M A) : M A :=
  bind (if id_given (gid c) then
          (ok <- setgid (gid c) ;; if ok then setgroups [gid c] else ret false)
        else ret true)
  (fun ok =>
     if negb ok then fail
     else bind (if id_given (uid c) then setuid (uid c) else ret true)
          (fun ok => if ok then k else fail)).

(** src/child.c:140-171 *)
Definition load_seccomp {A} (c : config) (fail : M A) (k : M A) : M A :=
  match select_filter (ce_seccomp_ok env) (ce_has_execveat env) (ce_exe_ptr env) (seccomp_rule_name c) with
  | None => fail
  | Some None => k
  | Some (Some f) =>
      (fun k => Go tt (mkK (k_fds k) (k_next k) (k_rlim k) (k_cred k) (f :: k_filter k)
                           (k_calls k) (k_trace k))) ;;;
      emit (EvFilter f) ;;; k
  end.

(** src/child.c:173: execve(_config->exe_path, _config->args, _config->env);
    the first argument is the pointer [exe_path]. *)
Definition execve {A} (c : config) (fail : M A) : M A :=
  ok <- call (mkSys true "execve" (fun a => if Nat.eqb a 0 then ce_exe_ptr env else 0)) ;;
  if ok then emit EvExec ;;; (fun k => Stop (CExec (exe_path c) (args c) (Config.env c) k))
  else fail.

(** src/child.c:34-175 *)
Definition child_process_m (log_fp : option stream) (c : config) : M unit :=
  set_limits c log_fp (
  input_file <- redirect_input c log_fp ;;
  output_file <- redirect_output c log_fp input_file ;;
  error_file <- redirect_error c log_fp input_file output_file ;;
  drop_privileges c (child_error_exit log_fp input_file output_file error_file SETUID_FAILED) (
  load_seccomp c (child_error_exit log_fp input_file output_file error_file LOAD_SECCOMP_FAILED) (
  execve c (child_error_exit log_fp input_file output_file error_file EXECVE_FAILED)))).

Definition child_process (log_fp : option stream) (c : config) (k : kstate) : child_end :=
  match child_process_m log_fp c k with
  | Stop e => e
  | Go _ _ => CUB   (* child_process never returns: see Proofs/ChildProofs.v *)
  end.
End Child.
