(** Concrete executions of run() with its timeout thread. *)
From Coq Require Import ZArith List.
From Verif.Base Require Import CInt CStr.
From Verif.Model Require Import Config Runner Timeout.
From Verif.Spec Require Import Samples.
Import ListNotations.
Open Scope Z_scope.

(** max_real_time is 2000 ms, so the sleep lasts 3 s. *)
Definition sample_params : tparams := mkP sample_config 4242 false.

Definition up_to_wait : list op := [Parent; Parent; Parent; Parent].
Definition thread_asleep : list op := [Killer; Killer; Killer; Killer].

(** An endless program: the timeout thread sleeps 3 s and kills it. *)
Definition timed_out : list op :=
  up_to_wait ++ thread_asleep ++
  [Tick 3000000; Killer; Killer; Deliver; Wait sample_usage; Parent; Parent].

(** A program that exits after 0.12 s. *)
Definition finished : list op :=
  up_to_wait ++ thread_asleep ++
  [Tick 120000; Exit 0; Wait sample_usage; Parent; Parent; Tick 5000000].

(** The program exits while the thread wakes up; run() returns; the pid is
    given to another process; the thread kills that. *)
Definition late_kill : list op :=
  up_to_wait ++ thread_asleep ++
  [Tick 3000000; Exit 0; Wait sample_usage; Killer; Parent; Parent; Recycle; Killer].

(** The thread is scheduled only after run() has left the block. *)
Definition late_thread : list op := up_to_wait ++ [Killer; Killer].
(** By then the memory holds something else, e.g. -1: every process. *)
Definition late_thread_junk : list op :=
  up_to_wait ++ [KillerJunk (-1); Killer; Killer; Killer; Tick 3000000; Killer; Killer].
(** As in [late_thread], with the thread being scheduled in time. *)
Definition early_thread : list op :=
  [Parent; Parent; Parent; Killer; Killer; Parent; Killer; Killer].

(** The program stops itself. *)
Definition stopped : list op :=
  up_to_wait ++ thread_asleep ++ [StopP 19; Wait sample_usage; Parent; Parent].

(** The program starts another process and exits. *)
Definition orphan : list op :=
  up_to_wait ++ thread_asleep ++ [Spawn; Exit 0; Wait sample_usage; Parent; Parent].

(** pthread_create fails; wait4 fails. *)
Definition create_fails : list op := [Parent; Parent; ParentFail; Parent].
Definition wait_fails : list op := up_to_wait ++ [ParentFail; Parent].
