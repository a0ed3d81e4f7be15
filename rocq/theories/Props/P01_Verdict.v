(** C01-C12: the result of run(), for all system call outcomes. *)
From Coq Require Import ZArith Bool List Lia.
From Verif.Base Require Import CInt CStr.
From Verif.Model Require Import Config Runner.
From Verif.Spec Require Import Verdict RunSpec Samples.
From Verif.Proofs Require Import RunnerProofs RunnerClaims SampleFacts.
Import ListNotations.
Open Scope Z_scope.

(** Non-vacuity of [judged]: the sample run is judged, with each kind of outcome. *)
Example sample_judged :
  forall o, In o [Exited 0; Exited 3; Killed 9 false; Killed 11 true; Killed 10 false; Stopped 19] ->
  judged sample_config (sample_env (wait_status o) sample_usage) o sample_usage
  /\ env_fits (sample_env (wait_status o) sample_usage).
Proof.
  intros o Ho.
  assert (wf_outcome o) as W
    by (cbn in Ho; repeat destruct Ho as [<-|Ho]; cbn; try lia; destruct Ho).
  split.
  - apply sample_env_judged; [assumption|apply tv_ok_b; reflexivity|cbn; unfold rss_ok; cbn; lia].
  - intros st ru E. injection E as <- <-. vm_compute. intuition discriminate.
Qed.

(** C01 *)
Theorem C01_verdict_table : forall c e o ru,
  judged c e o ru ->
  exists r ef, run c e = Returns (Val r) ef /\ error r = 0 /\
    verdict_table (max_cpu_time c) (max_real_time c) (max_memory c) o
                  (cpu_time r) (real_time r) (memory r) (verdict r).
Proof. exact c01_verdict_table. Qed.
Print Assumptions C01_verdict_table.

(** C01: the table determines the verdict, and the values it is applied to are
    the measured ones. *)
Theorem C01_table_is_functional : forall lc lr lm o cpu real mem v w,
  verdict_table lc lr lm o cpu real mem v -> verdict_table lc lr lm o cpu real mem w -> v = w.
Proof. exact verdict_table_inj. Qed.
Print Assumptions C01_table_is_functional.

Theorem C01_measured_values : forall c e o ru,
  judged c e o ru -> env_fits e -> (forall core, o <> Killed 10 core) ->
  exists r ef, run c e = Returns (Val r) ef /\
    cpu_time r = cpu_ms ru /\ real_time r = elapsed_ms e /\ memory r = 1024 * ru_maxrss ru.
Proof. exact c01_measured. Qed.
Print Assumptions C01_measured_values.

(** Several limits tripped at once (CPU wins over real time, memory and the signal). *)
Example C01_sample :
  run (mkConfig 10 20 1024 1 1 1 0 [] None None None [] [] [] None 0 0)
      (sample_env (wait_status (Killed 9 false)) sample_usage)
  = Returns (Val (mkResult 80 120 1536000 9 0 0 1))
      [EfLogOpen []; EfFork; EfThread 4242 20; EfWait 4242; EfCancel; EfLogClose].
Proof. vm_compute. reflexivity. Qed.

(** C02 *)
Theorem C02_success_iff : forall c e r ef,
  env_ok e -> env_fits e -> run c e = Returns (Val r) ef ->
  (error r = 0 /\ verdict r = 0) <->
  (exists ru, judged c e (Exited 0) ru /\
     ~ exceeded (max_cpu_time c) (cpu_ms ru) /\
     ~ exceeded (max_real_time c) (elapsed_ms e) /\
     ~ exceeded (max_memory c) (ru_maxrss ru * 1024)).
Proof. exact success_iff. Qed.
Print Assumptions C02_success_iff.

Example C02_sample :
  run sample_config (sample_env 0 sample_usage)
  = Returns (Val (mkResult 80 120 1536000 0 0 0 0))
      [EfLogOpen (log_path sample_config); EfFork; EfThread 4242 2000; EfWait 4242; EfCancel; EfLogClose].
Proof. vm_compute. reflexivity. Qed.

(** C03 *)
Theorem C03_error_exclusive : forall c e r ef,
  run c e = Returns (Val r) ef ->
  (error r = 0 \/ In (error r) [-1; -2; -3; -4; -5]) /\
  (error r <> 0 ->
     cpu_time r = 0 /\ real_time r = 0 /\ memory r = 0 /\ signal r = 0 /\
     exit_code r = 0 /\ verdict r = 0).
Proof. exact c03_error_exclusive. Qed.
Print Assumptions C03_error_exclusive.

Theorem C03_error_code : forall c e r ef,
  run c e = Returns (Val r) ef ->
  (error r = ROOT_REQUIRED <-> e_getuid e <> 0) /\
  (error r = INVALID_CONFIG <-> e_getuid e = 0 /\ ~ limits_accepted c) /\
  (error r = FORK_FAILED <-> e_getuid e = 0 /\ limits_accepted c /\ e_fork e < 0) /\
  (error r = PTHREAD_FAILED <->
     e_getuid e = 0 /\ limits_accepted c /\ 0 < e_fork e /\ max_real_time c <> -1 /\
     e_pthread_create e <> 0) /\
  (error r = WAIT_FAILED <->
     e_getuid e = 0 /\ limits_accepted c /\ 0 < e_fork e /\
     (max_real_time c = -1 \/ e_pthread_create e = 0) /\ e_wait4 e = None) /\
  (error r = SUCCESS <->
     e_getuid e = 0 /\ limits_accepted c /\ 0 < e_fork e /\
     (max_real_time c = -1 \/ e_pthread_create e = 0) /\ e_wait4 e <> None).
Proof. exact c03_error_code. Qed.
Print Assumptions C03_error_code.

(** Each of the errors, by the call that fails: not root, a limit of 0, fork, pthread_create, wait4. *)
Example C03_cases :
  let fails uid fork thread := mkRunEnv uid (mkTv 5 0) fork thread None (mkTv 6 0) in
  (exists ef, run sample_config (fails 1000 7 0) = Returns (Val (mkResult 0 0 0 0 0 (-5) 0)) ef) /\
  (exists ef, run (mkConfig 0 1 1 1 1 1 0 [] None None None [] [] [] None 0 0) (fails 0 7 0) = Returns (Val (mkResult 0 0 0 0 0 (-1) 0)) ef) /\
  (exists ef, run sample_config (fails 0 (-1) 0) = Returns (Val (mkResult 0 0 0 0 0 (-2) 0)) ef) /\
  (exists ef, run sample_config (fails 0 7 11) = Returns (Val (mkResult 0 0 0 0 0 (-3) 0)) ef) /\
  (exists ef, run sample_config (fails 0 7 0) = Returns (Val (mkResult 0 0 0 0 0 (-4) 0)) ef).
Proof. cbv zeta. repeat split; eexists; vm_compute; reflexivity. Qed.

(** The reading "result = SUCCESS means that the program succeeded" is false:
    here nothing was even started. *)
Theorem C03_result_alone_refuted :
  exists c e r ef, run c e = Returns (Val r) ef /\ verdict r = SUCCESS /\ ~ In EfFork ef.
Proof.
  exists sample_config, (mkRunEnv 1000 (mkTv 0 0) 1 0 None (mkTv 0 0)). eexists. eexists.
  split; [reflexivity|]. split; [reflexivity|]. cbn. intuition discriminate.
Qed.
Print Assumptions C03_result_alone_refuted.

(** C04 *)
Theorem C04_signal_exit_code : forall c e o ru,
  judged c e o ru ->
  exists r ef, run c e = Returns (Val r) ef /\
    match o with
    | Exited n => signal r = 0 /\ exit_code r = n
    | Killed s _ => signal r = s /\ exit_code r = 0
    | Stopped s => signal r = 0 /\ exit_code r = s /\ verdict r <> 0
    end.
Proof. exact c04_signal_exit_code. Qed.
Print Assumptions C04_signal_exit_code.

(** The outcomes of [sample_judged]: exit status, signal, with core dump, stopped. *)
Example C04_cases :
  let report o := match run sample_config (sample_env (wait_status o) sample_usage) with
                  | Returns (Val r) _ => Some (signal r, exit_code r, verdict r) | _ => None end in
  map report [Exited 0; Exited 3; Killed 9 false; Killed 11 true; Stopped 19] =
  [Some (0, 0, 0); Some (0, 3, 4); Some (9, 0, 4); Some (11, 0, 4); Some (0, 19, 4)].
Proof. vm_compute. reflexivity. Qed.

(** C05 *)
Theorem C05_system_error : forall c e r ef,
  env_ok e -> run c e = Returns (Val r) ef ->
  (verdict r = SYSTEM_ERROR <-> exists core ru, judged c e (Killed 10 core) ru) /\
  (verdict r = SYSTEM_ERROR ->
     error r = 0 /\ signal r = 10 /\ exit_code r = 0 /\ cpu_time r = 0 /\ memory r = 0 /\
     real_time r = cast_int (elapsed_ms e)).
Proof. exact c05_system_error. Qed.
Print Assumptions C05_system_error.

Example C05_case : exists ef, env_ok (sample_env (wait_status (Killed 10 false)) sample_usage) /\
  run sample_config (sample_env (wait_status (Killed 10 false)) sample_usage) = Returns (Val (mkResult 0 120 0 10 0 0 5)) ef.
Proof.
  eexists. split; [|vm_compute; reflexivity].
  destruct (sample_judged (Killed 10 false)) as ((_ & _ & _ & _ & _ & _ & E) & _); [cbn; auto 6|exact E].
Qed.

(** C06 *)
Theorem C06_memory : forall c e o ru,
  judged c e o ru ->
  exists r ef, run c e = Returns (Val r) ef /\
    ((forall core, o <> Killed 10 core) -> memory r = 1024 * ru_maxrss ru) /\
    (verdict r = MEMORY_LIMIT_EXCEEDED -> exceeded (max_memory c) (memory r)).
Proof. exact c06_memory. Qed.
Print Assumptions C06_memory.

(** C06: where the multiplication by 1024 leaves [long]. *)
Theorem C06_memory_overflow_boundary : forall c e st ru,
  e_getuid e = 0 -> limits_accepted c -> 0 < e_fork e -> max_real_time c = -1 ->
  e_wait4 e = Some (st, ru) -> tv_ok (e_start e) -> tv_ok (e_end e) -> tv_ok (ru_utime ru) ->
  0 <= ru_maxrss ru -> st = 0 ->
  ((exists ef, run c e = Returns UB ef) <-> 2 ^ 53 <= ru_maxrss ru).
Proof. exact c06_memory_overflow. Qed.
Print Assumptions C06_memory_overflow_boundary.

(** 64 MiB, one KiB below the limit, at it and above it; and the first amount that overflows. *)
Example C06_cases :
  let report kib := match run (mkConfig (-1) (-1) 67108864 1 (-1) (-1) 0 [] None None None [] [] [] None 0 0)
                                (sample_env 0 (mkRu (mkTv 0 0) (mkTv 0 0) kib)) with
                    | Returns (Val r) _ => Some (memory r, verdict r) | _ => None end in
  map report [65535; 65536; 65537; 9007199254740992] =
  [Some (67107840, 0); Some (67108864, 0); Some (67109888, 3); None].
Proof. vm_compute. reflexivity. Qed.

(** C07, verdict and timeout thread (the rlimit part is in P02_Child). *)
Theorem C07_unlimited_verdict : forall c e r ef,
  env_ok e -> run c e = Returns (Val r) ef ->
  (max_cpu_time c = UNLIMITED -> verdict r <> CPU_TIME_LIMIT_EXCEEDED) /\
  (max_real_time c = UNLIMITED -> verdict r <> REAL_TIME_LIMIT_EXCEEDED) /\
  (max_memory c = UNLIMITED -> verdict r <> MEMORY_LIMIT_EXCEEDED).
Proof. exact c07_unlimited_verdict. Qed.
Print Assumptions C07_unlimited_verdict.

Theorem C07_unlimited_no_thread : forall c e r ef,
  run c e = Returns r ef -> max_real_time c = UNLIMITED ->
  ~ In EfCancel ef /\ forall pid t, ~ In (EfThread pid t) ef.
Proof. exact c07_unlimited_no_thread. Qed.
Print Assumptions C07_unlimited_no_thread.

(** Without limits nothing is too much and no thread is started; the same use under small limits is. *)
Example C07_cases :
  let used := sample_env 0 (mkRu (mkTv 900 0) (mkTv 0 0) 99999999) in
  let limits x := mkConfig x x x 1 (-1) (-1) 0 [] None None None [] [] [] None 0 0 in
  env_ok used /\
  (exists r, run (limits (-1)) used = Returns (Val r) [EfLogOpen []; EfFork; EfWait 4242; EfLogClose] /\ verdict r = 0) /\
  (exists r ef, run (limits 1) used = Returns (Val r) ef /\ verdict r = 1).
Proof.
  cbv zeta. split; [|split; [eexists; split; vm_compute; reflexivity|eexists; eexists; split; vm_compute; reflexivity]].
  split; [apply tv_ok_b; reflexivity|]. split; [apply tv_ok_b; reflexivity|]. intros st ru E. injection E as <- <-.
  split; [exists (Exited 0); cbn; split; [lia|reflexivity]|]. split; [apply tv_ok_b; reflexivity|unfold rss_ok; cbn; lia].
Qed.

(** C08 *)
Theorem C08_real_time : forall c e o ru,
  judged c e o ru -> INT_MIN <= elapsed_ms e <= INT_MAX ->
  exists r ef, run c e = Returns (Val r) ef /\
    -1000 < 1000 * real_time r - elapsed_us e < 1000 /\
    (0 <= elapsed_us e -> 0 <= real_time r).
Proof. exact c08_real_time. Qed.
Print Assumptions C08_real_time.

Theorem C08_real_time_monotone : forall c e1 e2 o1 ru1 o2 ru2 r1 r2 ef1 ef2,
  judged c e1 o1 ru1 -> judged c e2 o2 ru2 ->
  INT_MIN <= elapsed_ms e1 -> elapsed_ms e2 <= INT_MAX ->
  us (e_start e1) = us (e_start e2) -> us (e_end e1) <= us (e_end e2) ->
  run c e1 = Returns (Val r1) ef1 -> run c e2 = Returns (Val r2) ef2 ->
  real_time r1 <= real_time r2.
Proof. exact c08_monotone. Qed.
Print Assumptions C08_real_time_monotone.

(** 120.25 ms are reported as 120; a program that ends 0.75 ms later is at 121; both meet the hypotheses. *)
Example C08_cases :
  let e1 := sample_env 0 sample_usage in
  let e2 := mkRunEnv 0 (mkTv 1000 500000) 4242 0 (Some (0, sample_usage)) (mkTv 1000 621000) in
  judged sample_config e1 (Exited 0) sample_usage /\ judged sample_config e2 (Exited 0) sample_usage /\
  elapsed_us e1 = 120250 /\ elapsed_us e2 = 121000 /\ us (e_start e1) = us (e_start e2) /\
  (exists r ef, run sample_config e1 = Returns (Val r) ef /\ real_time r = 120) /\
  (exists r ef, run sample_config e2 = Returns (Val r) ef /\ real_time r = 121).
Proof.
  cbv zeta. split; [apply (sample_judged (Exited 0)); cbn; auto|].
  split; [apply judged_intro; try reflexivity; try (apply tv_ok_b; reflexivity); [apply sample_limits|cbn; lia|unfold rss_ok; cbn; lia]|].
  repeat split; do 2 eexists; split; vm_compute; reflexivity.
Qed.

(** Without the bound on the duration it is false: after 2^31 ms the reported
    real time is negative and the real time limit is not reported. *)
Theorem C08_long_run_refuted :
  exists c e o ru r ef, judged c e o ru /\ run c e = Returns (Val r) ef /\
    elapsed_ms e > max_real_time c /\ real_time r < 0 /\ verdict r = SUCCESS.
Proof.
  exists sample_config.
  exists (mkRunEnv 0 (mkTv 0 0) 4242 0 (Some (0, sample_usage)) (mkTv 2147483 648000)).
  exists (Exited 0), sample_usage. eexists. eexists.
  split; [|split; [reflexivity|]].
  - apply judged_intro; try reflexivity; try (apply tv_ok_b; reflexivity).
    + apply sample_limits.
    + cbn; lia.
    + unfold rss_ok; cbn; lia.
  - vm_compute. intuition congruence.
Qed.
Print Assumptions C08_long_run_refuted.

(** C09 *)
Theorem C09_cpu_time_is_user_time : forall c e o ru,
  judged c e o ru -> env_fits e -> (forall core, o <> Killed 10 core) ->
  exists r ef, run c e = Returns (Val r) ef /\
    1000 * cpu_time r <= us (ru_utime ru) < 1000 * (cpu_time r + 1).
Proof. exact c09_cpu_time. Qed.
Print Assumptions C09_cpu_time_is_user_time.

(** The part that holds of "total CPU time above the limit is reported": no
    system time, at least one full millisecond above the limit. *)
Theorem C09_total_cpu_without_system_time : forall c e o ru,
  judged c e o ru -> env_fits e -> max_cpu_time c <> UNLIMITED ->
  us (ru_stime ru) = 0 -> total_cpu_us ru >= 1000 * (max_cpu_time c + 1) ->
  (forall core, o <> Killed 10 core) -> (forall core, o <> Killed 11 core) ->
  exists r ef, run c e = Returns (Val r) ef /\ error r = 0 /\ verdict r = CPU_TIME_LIMIT_EXCEEDED.
Proof. exact c09_total_cpu. Qed.
Print Assumptions C09_total_cpu_without_system_time.

(** Non-vacuity: 3 s of user time under a 1 s limit. *)
Example C09_sample :
  let ru := mkRu (mkTv 3 0) (mkTv 0 0) 1500 in
  total_cpu_us ru >= 1000 * (max_cpu_time sample_config + 1) /\
  exists r ef, run sample_config (sample_env 9 ru) = Returns (Val r) ef /\ verdict r = 1.
Proof. split; [vm_compute; discriminate|]. eexists. eexists. split; reflexivity. Qed.

(** The full statement is false: 30 s of system time under a 1 s limit, killed
    by the kernel (SIGKILL), is a runtime error with cpu_time 0. *)
Theorem C09_total_cpu_refuted :
  exists c e o ru r ef, judged c e o ru /\ run c e = Returns (Val r) ef /\
    total_cpu_us ru > 1000 * 1000 * 29 /\ max_cpu_time c = 1000 /\
    error r = 0 /\ verdict r = RUNTIME_ERROR /\ cpu_time r = 0.
Proof.
  pose (ru := mkRu (mkTv 0 0) (mkTv 30 0) 1500).
  exists sample_config, (sample_env 9 ru), (Killed 9 false), ru. eexists. eexists.
  split; [|split; [reflexivity|]].
  - apply (sample_env_judged (Killed 9 false)).
    + cbn; lia.
    + apply tv_ok_b; reflexivity.
    + unfold rss_ok; cbn; lia.
  - vm_compute. intuition congruence.
Qed.
Print Assumptions C09_total_cpu_refuted.

(** C10 *)
Theorem C10_config_check : forall c e,
  e_getuid e = 0 ->
  (limits_accepted c <->
     (exists ef, (run c e = EntersChild ef \/ exists r, run c e = Returns r ef) /\ In EfFork ef)) /\
  (~ limits_accepted c <->
     exists ef, run c e = Returns (Val (mkResult 0 0 0 0 0 INVALID_CONFIG 0)) ef).
Proof. exact c10_config_check. Qed.
Print Assumptions C10_config_check.

(** max_stack = UNLIMITED is rejected. *)
Example C10_unlimited_stack : forall a b m p o k x i out err ar en lg sc u g,
  ~ limits_accepted (mkConfig a b m (-1) p o k x i out err ar en lg sc u g).
Proof. unfold limits_accepted. cbn. intros. lia. Qed.

(** C11 *)
Theorem C11_root_required : forall c e,
  e_getuid e <> 0 ->
  exists ef, run c e = Returns (Val (mkResult 0 0 0 0 0 ROOT_REQUIRED 0)) ef /\
    ~ In EfFork ef /\ (forall pid t, ~ In (EfThread pid t) ef) /\
    (forall pid s, ~ In (EfKill pid s) ef).
Proof. exact c11_root_required. Qed.
Print Assumptions C11_root_required.

Example C11_case : run sample_config (mkRunEnv 1000 (mkTv 5 0) 7 0 (Some (0, sample_usage)) (mkTv 6 0)) =
  Returns (Val (mkResult 0 0 0 0 0 (-5) 0)) [EfLogOpen (log_path sample_config); EfLogError (-5); EfLogClose].
Proof. vm_compute. reflexivity. Qed.

(** C12 (the interleaved version is in P04_Timeout). *)
Theorem C12_failures : forall c e,
  e_getuid e = 0 -> limits_accepted c ->
  (e_fork e < 0 ->
     exists ef, run c e = Returns (Val (mkResult 0 0 0 0 0 FORK_FAILED 0)) ef /\
       (forall pid s, ~ In (EfKill pid s) ef)) /\
  (0 < e_fork e -> max_real_time c <> UNLIMITED -> e_pthread_create e <> 0 ->
     exists ef, run c e = Returns (Val (mkResult 0 0 0 0 0 PTHREAD_FAILED 0)) ef /\
       In (EfKill (e_fork e) SIGKILL) ef /\ ~ In (EfWait (e_fork e)) ef) /\
  (0 < e_fork e -> (max_real_time c = UNLIMITED \/ e_pthread_create e = 0) -> e_wait4 e = None ->
     exists ef, run c e = Returns (Val (mkResult 0 0 0 0 0 WAIT_FAILED 0)) ef /\
       In (EfKill (e_fork e) SIGKILL) ef).
Proof. exact c12_failures. Qed.
Print Assumptions C12_failures.
