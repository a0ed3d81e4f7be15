(** Vocabulary for statements about [run]: only the types of Model/Config.v and
    Model/Runner.v (configuration, result, what the system calls returned) are
    used, no function of the model. *)
From Coq Require Import ZArith Bool List.
From Verif.Base Require Import CInt CStr.
From Verif.Model Require Import Config Runner.
From Verif.Spec Require Import Verdict.
Import ListNotations.
Open Scope Z_scope.

(** The limits run() accepts. *)
Definition limits_accepted (c : config) : Prop :=
  limit_ok (max_cpu_time c) /\ limit_ok (max_real_time c) /\ limit_ok (max_memory c) /\
  limit_ok (max_process_number c) /\ limit_ok (max_output_size c) /\ 1 <= max_stack c.

Definition tv_ok (t : timeval) : Prop := instant_ok (tv_sec t) (tv_usec t).
(** The instant in microseconds. *)
Definition us (t : timeval) : Z := usec (tv_sec t) (tv_usec t).
Definition rss_ok (ru : rusage) : Prop := 0 <= ru_maxrss ru < 2 ^ 53.

(** What a kernel can return: a well-formed status of a child and sane clocks. *)
Definition env_ok (e : run_env) : Prop :=
  tv_ok (e_start e) /\ tv_ok (e_end e) /\
  forall st ru, e_wait4 e = Some (st, ru) ->
    (exists o, wf_outcome o /\ st = wait_status o) /\ tv_ok (ru_utime ru) /\ rss_ok ru.

(** The judger was able to start the program and wait4 reported outcome [o]
    with usage [ru]. *)
Definition judged (c : config) (e : run_env) (o : outcome) (ru : rusage) : Prop :=
  e_getuid e = 0 /\ limits_accepted c /\ 0 < e_fork e /\
  (max_real_time c = -1 \/ e_pthread_create e = 0) /\
  e_wait4 e = Some (wait_status o, ru) /\ wf_outcome o /\ env_ok e.

(** Measurements, in the units of the result. *)
Definition cpu_ms (ru : rusage) : Z := us (ru_utime ru) / 1000.
Definition total_cpu_us (ru : rusage) : Z := us (ru_utime ru) + us (ru_stime ru).
Definition elapsed_us (e : run_env) : Z := us (e_end e) - us (e_start e).
Definition elapsed_ms (e : run_env) : Z := us (e_end e) / 1000 - us (e_start e) / 1000.
(** The reported times are C ints: no wrap-around below 2^31 ms (24.8 days). *)
Definition times_fit (e : run_env) (ru : rusage) : Prop :=
  INT_MIN <= elapsed_ms e <= INT_MAX /\ cpu_ms ru <= INT_MAX.

Definition env_fits (e : run_env) : Prop :=
  forall st ru, e_wait4 e = Some (st, ru) -> times_fit e ru.
