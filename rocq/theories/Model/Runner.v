(** src/runner.c: [run] as a function of what the system calls return.

    The environment of one call of [run] is a record of the values returned by
    the system calls; every theorem quantifies over all such records.  The
    effects on the outside are recorded in order.  The interleaving with the
    timeout thread and the program is modelled in Model/Timeout.v, which uses
    the same [judge] function. *)
From Coq Require Import ZArith Bool List.
From Verif.Base Require Import CInt CStr.
From Verif.Model Require Import Config.
Import ListNotations.
Open Scope Z_scope.

(** [struct timeval]. *)
Record timeval : Type := mkTv { tv_sec : Z; tv_usec : Z }.

(** The members of [struct rusage] that exist in the model: user and system
    time, peak resident set in KiB.  src/runner.c reads [ru_utime] and
    [ru_maxrss]; [ru_stime] is here because the kernel CPU limit counts it. *)
Record rusage : Type := mkRu { ru_utime : timeval; ru_stime : timeval; ru_maxrss : Z }.

(** glibc <bits/waitstatus.h>, used at src/runner.c:100-108. *)
Definition WTERMSIG (status : Z) : Z := Z.land status 127.
Definition WEXITSTATUS (status : Z) : Z := Z.shiftr (Z.land status 65280) 8.
(** [((signed char) ((status & 0x7f) + 1) >> 1) > 0] *)
Definition cast_schar (z : Z) : Z := (z + 128) mod 256 - 128.
Definition WIFSIGNALED (status : Z) : bool :=
  0 <? Z.shiftr (cast_schar (Z.land status 127 + 1)) 1.

(** Linux signal numbers on x86-64. *)
Definition SIGKILL : Z := 9.
Definition SIGUSR1 : Z := 10.
Definition SIGSEGV : Z := 11.
Definition SIGXFSZ : Z := 25.
Definition SIGSYS  : Z := 31.

(** src/runner.c:22-26 *)
Definition init_result : result := mkResult 0 0 0 0 0 SUCCESS SUCCESS.

(** src/runner.c:43-48: the test that leads to INVALID_CONFIG. *)
Definition config_invalid (c : config) : bool :=
  ((max_cpu_time c <? 1) && negb (max_cpu_time c =? UNLIMITED)) ||
  ((max_real_time c <? 1) && negb (max_real_time c =? UNLIMITED)) ||
  (max_stack c <? 1) ||
  ((max_memory c <? 1) && negb (max_memory c =? UNLIMITED)) ||
  ((max_process_number c <? 1) && negb (max_process_number c =? UNLIMITED)) ||
  ((max_output_size c <? 1) && negb (max_output_size c =? UNLIMITED)).

(** src/runner.c:91: all operations are on [long]; the divisions act on
    non-negative microseconds; the final conversion is to [int]. *)
Definition real_time_ms (start end_ : timeval) : cres Z :=
  cbind (long_op (tv_sec end_ * 1000)) (fun a =>
  cbind (long_op (a + cdiv (tv_usec end_) 1000)) (fun b =>
  cbind (long_op (tv_sec start * 1000)) (fun c =>
  cbind (long_op (b - c)) (fun d =>
  cbind (long_op (d - cdiv (tv_usec start) 1000)) (fun e =>
  Val (cast_int e)))))).

(** src/runner.c:109-110 *)
Definition cpu_time_ms (ru : rusage) : cres Z :=
  cbind (long_op (tv_sec (ru_utime ru) * 1000)) (fun a =>
  cbind (long_op (a + cdiv (tv_usec (ru_utime ru)) 1000)) (fun b =>
  Val (cast_int b))).

(** src/runner.c:111 *)
Definition memory_bytes (ru : rusage) : cres Z := long_op (ru_maxrss ru * 1024).

(** src/runner.c:113-138: the verdict, statement by statement; [v] is the value
    of the field [result] before the statement. *)
Definition decide (c : config) (sig exit_c cpu real mem : Z) : Z :=
  let v := SUCCESS in
  let v := if negb (exit_c =? 0) then RUNTIME_ERROR else v in
  if sig =? SIGSEGV then
    if negb (max_memory c =? UNLIMITED) && (max_memory c <? mem)
    then MEMORY_LIMIT_EXCEEDED else RUNTIME_ERROR
  else
    let v := if negb (sig =? 0) then RUNTIME_ERROR else v in
    let v := if negb (max_memory c =? UNLIMITED) && (max_memory c <? mem)
             then MEMORY_LIMIT_EXCEEDED else v in
    let v := if negb (max_real_time c =? UNLIMITED) && (max_real_time c <? real)
             then REAL_TIME_LIMIT_EXCEEDED else v in
    let v := if negb (max_cpu_time c =? UNLIMITED) && (max_cpu_time c <? cpu)
             then CPU_TIME_LIMIT_EXCEEDED else v in
    v.

(** src/runner.c:90-139: from a returned wait status to the result. *)
Definition judge (c : config) (status : Z) (ru : rusage) (start end_ : timeval)
  : cres result :=
  cbind (real_time_ms start end_) (fun real =>
  let sig := if WIFSIGNALED status then WTERMSIG status else 0 in
  if sig =? SIGUSR1 then
    Val (mkResult 0 real 0 sig 0 SUCCESS SYSTEM_ERROR)
  else
    cbind (cpu_time_ms ru) (fun cpu =>
    cbind (memory_bytes ru) (fun mem =>
    let ec := WEXITSTATUS status in
    Val (mkResult cpu real mem sig ec SUCCESS (decide c sig ec cpu real mem))))).

(** What the system calls of one [run] return. *)
Record run_env : Type := mkRunEnv {
  e_getuid : Z;                         (* getuid() *)
  e_start : timeval;                    (* first gettimeofday *)
  e_fork : Z;                           (* fork(): < 0 failure, 0 in the child *)
  e_pthread_create : Z;                 (* 0 is success *)
  e_wait4 : option (Z * rusage);        (* None: wait4 returned -1 *)
  e_end : timeval                       (* second gettimeofday *)
}.

(** Effects of [run] on the outside, in program order. *)
Inductive effect : Type :=
| EfLogOpen (path : str)
| EfFork
| EfThread (pid timeout : Z)   (* timeout thread started *)
| EfKill (pid sig : Z)
| EfWait (pid : Z)
| EfCancel                     (* pthread_cancel on the timeout thread *)
| EfLogError (code : Z)
| EfLogClose.

(** How a call of [run] ends: it returns in the judger with a result, or
    control is in the new process, inside [child_process]. *)
Inductive run_out : Type :=
| Returns (r : cres result) (ef : list effect)
| EntersChild (ef : list effect).

(** src/runner.h:14-20, ERROR_EXIT on the still initial result. *)
Definition error_exit (code : Z) (ef : list effect) : run_out :=
  let r := init_result in
  Returns (Val (mkResult (cpu_time r) (real_time r) (memory r) (signal r)
                         (exit_code r) code (verdict r)))
          (ef ++ [EfLogError code; EfLogClose]).

(** src/runner.c:29-143.  Simplification: [log_open] is an effect only; the
    value of the handle is modelled in Model/Child.v and Model/Logger.v. *)
Definition run (c : config) (e : run_env) : run_out :=
  let ef := [EfLogOpen (log_path c)] in
  if negb (e_getuid e =? 0) then error_exit ROOT_REQUIRED ef
  else if config_invalid c then error_exit INVALID_CONFIG ef
  else
    let ef := ef ++ [EfFork] in
    let pid := e_fork e in
    if pid <? 0 then error_exit FORK_FAILED ef
    else if pid =? 0 then EntersChild ef
    else
      let limited := negb (max_real_time c =? UNLIMITED) in
      if limited && negb (e_pthread_create e =? 0) then
        error_exit PTHREAD_FAILED (ef ++ [EfKill pid SIGKILL])
      else
        let ef := if limited then ef ++ [EfThread pid (max_real_time c)] else ef in
        let ef := ef ++ [EfWait pid] in
        match e_wait4 e with
        | None => error_exit WAIT_FAILED (ef ++ [EfKill pid SIGKILL])
        | Some (status, ru) =>
            let ef := if limited then ef ++ [EfCancel] else ef in
            Returns (judge c status ru (e_start e) (e_end e)) (ef ++ [EfLogClose])
        end.
