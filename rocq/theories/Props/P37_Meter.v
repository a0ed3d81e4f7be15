(** Time and memory limits while the judged programs run.  Specification: Spec/MeterSpec.v. *)
From Coq Require Import ZArith Bool List String.
From Verif.Base Require Import CInt CStr.
From Verif.Model Require Import Config Runner Seccomp Child Program Meter.
From Verif.Spec Require Import Verdict RunSpec Syscalls SandboxSpec Samples ChildSamples ContainSpec ContainSamples MeterSpec.
From Verif.Proofs Require Import MeterProofs MeterClaims MeterAny.
Import ListNotations.
Open Scope list_scope.
Open Scope Z_scope.

(** However several c_cpp or c_cpp_file_io programs run, none uses more CPU time (user and system together) than its
    limit, rounded up to the next full second, and one tick. *)
Theorem C92_cpu_bound :
  forall tick xcpu own w m evs w' m' p c s, 0 <= tick -> all_begun own w m -> mruns tick xcpu w m evs w' m' -> runs_for w p c ->
  max_cpu_time c <> -1 -> w' p = Some s ->
  match s with
  | inl _ => u_time (m' p) < 1000000 * seconds (max_cpu_time c)
  | inr _ => u_time (m' p) < 1000000 * seconds (max_cpu_time c) + tick
  end.
Proof. exact cpu_bound. Qed.
Print Assumptions C92_cpu_bound.

(** None has ever more memory than twice its limit, unless the limit is only checked afterwards. *)
Theorem C92_memory_bound :
  forall tick xcpu own w m evs w' m' p c, 0 <= tick -> all_begun own w m -> mruns tick xcpu w m evs w' m' -> runs_for w p c ->
  max_memory c <> -1 -> memory_limit_check_only c = 0 ->
  u_space (m' p) <= 2 * max_memory c /\ u_peak (m' p) <= Z.max (own p) (2 * max_memory c).
Proof. exact mem_bound. Qed.
Print Assumptions C92_memory_bound.

(** A program that ends by SIGKILL or SIGXCPU which nobody sent it has used more than its limit. *)
Theorem C92_not_early :
  forall tick xcpu own w m evs w' m' p c, all_begun own w m -> mruns tick xcpu w m evs w' m' -> runs_for w p c ->
  max_cpu_time c <> -1 -> cpu_limits_left evs -> (forall sig, In (MHit p sig) evs -> sig <> 9 /\ sig <> 24) ->
  w' p = Some (inr (Signaled 9)) \/ w' p = Some (inr (Signaled 24)) ->
  1000 * max_cpu_time c < 1000000 * seconds (max_cpu_time c) <= u_time (m' p).
Proof. exact not_early. Qed.
Print Assumptions C92_not_early.

(** All the time and all the memory that is allowed can be had, in any proportion of user and system time. *)
Theorem C92_time_available :
  forall tick xcpu own w m p c user sys, 1 <= tick -> all_begun own w m -> runs_for w p c ->
  max_cpu_time c <> -1 -> u_user (m p) <= user -> u_sys (m p) <= sys -> user + sys < 1000000 * seconds (max_cpu_time c) ->
  exists evs w' m' P, mruns tick xcpu w m evs w' m' /\ w' p = Some (inl P) /\ u_user (m' p) = user /\ u_sys (m' p) = sys.
Proof. exact time_available. Qed.
Print Assumptions C92_time_available.

Theorem C92_memory_available :
  forall tick xcpu own w m p c space, all_begun own w m -> runs_for w p c ->
  max_memory c <> -1 -> memory_limit_check_only c = 0 -> 0 <= space <= 2 * max_memory c ->
  exists evs w' m' P, mruns tick xcpu w m evs w' m' /\ w' p = Some (inl P) /\
    u_space (m' p) = space /\ u_resident (m' p) = space.
Proof. exact memory_available_for. Qed.
Print Assumptions C92_memory_available.

(** The result never shows more than the limit and a second (and a tick), nor more memory than twice the limit (or what
    the judger itself had). *)
Theorem C92_reported :
  forall tick xcpu own w m evs w' m' p c e o ru r ef,
  0 <= tick -> all_begun own w m -> mruns tick xcpu w m evs w' m' -> runs_for w p c ->
  RunSpec.judged c e o ru -> env_fits e -> waited_for w' m' p o ru -> run c e = Returns (Val r) ef ->
  (max_cpu_time c <> -1 -> cpu_time r <= max_cpu_time c + 1000 + tick / 1000) /\
  (max_memory c <> -1 -> memory_limit_check_only c = 0 -> 0 <= own p -> memory r <= Z.max (own p) (2 * max_memory c)).
Proof. exact reported_within. Qed.
Print Assumptions C92_reported.

(** A program ended by the kernel for its time is reported CPU_TIME_LIMIT_EXCEEDED if it has spent enough of that time
    in user mode. *)
Theorem C92_cut_verdict :
  forall tick xcpu own w m evs w' m' p c e o ru r ef,
  all_begun own w m -> mruns tick xcpu w m evs w' m' -> runs_for w p c ->
  max_cpu_time c <> -1 -> cpu_limits_left evs -> (forall sig, In (MHit p sig) evs -> sig <> 9 /\ sig <> 24) ->
  RunSpec.judged c e o ru -> env_fits e -> waited_for w' m' p o ru -> run c e = Returns (Val r) ef ->
  signal r = 9 \/ signal r = 24 ->
  u_sys (m' p) <= 1000000 * seconds (max_cpu_time c) - 1000 * (max_cpu_time c + 1) ->
  verdict r = CPU_TIME_LIMIT_EXCEEDED.
Proof. exact cut_verdict. Qed.
Print Assumptions C92_cut_verdict.

(** Not always: one that only makes system calls is ended by the kernel after two seconds (limit 1000 ms), and is
    reported a RUNTIME_ERROR that used no time. *)
Theorem C92_cut_is_time_limit_refuted :
  forall tick xcpu, 1 <= tick ->
  exists evs w' m' o ru r ef,
    mruns tick xcpu (two (Some "c_cpp"%string) 1001 1002) fresh_meter evs w' m' /\ cpu_limits_left evs /\
    (forall sig, ~ In (MHit 7 sig) evs) /\
    2000000 <= u_time (m' 7%nat) /\ u_user (m' 7%nat) = 0 /\ waited_for w' m' 7 o ru /\
    RunSpec.judged (sub_config (Some "c_cpp"%string) 1001) (end_env (wait_status o) ru) o ru /\
    run (sub_config (Some "c_cpp"%string) 1001) (end_env (wait_status o) ru) = Returns (Val r) ef /\
    cpu_time r = 0 /\ verdict r = RUNTIME_ERROR.
Proof. exact system_time_unseen. Qed.
Print Assumptions C92_cut_is_time_limit_refuted.

(** A program that asks for 1 GiB of its 128 MiB, is refused and goes on, is reported a SUCCESS. *)
Theorem C92_refused_memory_reported_refuted :
  forall tick xcpu,
  exists evs w' m' ru r ef,
    mruns tick xcpu (two (Some "c_cpp"%string) 1001 1002) fresh_meter evs w' m' /\
    In (MCall 7 (call "mmap" [0; 1073741824; 3; 34; 18446744073709551615; 0])) evs /\
    waited_for w' m' 7 (Verdict.Exited 0) ru /\
    RunSpec.judged (sub_config (Some "c_cpp"%string) 1001) (end_env 0 ru) (Verdict.Exited 0) ru /\
    run (sub_config (Some "c_cpp"%string) 1001) (end_env 0 ru) = Returns (Val r) ef /\ verdict r = SUCCESS.
Proof. exact refused_memory_unseen. Qed.
Print Assumptions C92_refused_memory_reported_refuted.

(** Without a limit on the address space (memory_limit_check_only, or no limit), any amount can be had. *)
Theorem C92_checked_only_unbounded :
  forall tick xcpu own w m p P space, all_begun own w m -> w p = Some (inl P) ->
  fst (p_rlim P RAs) = 18446744073709551615 -> 0 <= space ->
  exists evs w' m', mruns tick xcpu w m evs w' m' /\ w' p = Some (inl P) /\ space <= u_peak (m' p).
Proof. exact checked_only_unbounded. Qed.
Print Assumptions C92_checked_only_unbounded.

(** The bounds hold under every profile for programs that make only modelled calls (where clone makes threads; for other
    processes see C86 and C87). *)
Theorem C92_any_profile :
  forall tick xcpu own w m evs w' m' p c, 0 <= tick -> all_begun_under own (fun rule => rule <> None) w m ->
  mruns tick xcpu w m evs w' m' -> only_modelled evs -> runs_for w p c ->
  (max_cpu_time c <> -1 -> forall s, w' p = Some s ->
     match s with
     | inl _ => u_time (m' p) < 1000000 * seconds (max_cpu_time c)
     | inr _ => u_time (m' p) < 1000000 * seconds (max_cpu_time c) + tick
     end) /\
  (max_memory c <> -1 -> memory_limit_check_only c = 0 ->
     u_space (m' p) <= 2 * max_memory c /\ u_peak (m' p) <= Z.max (own p) (2 * max_memory c)).
Proof. exact any_profile. Qed.
Print Assumptions C92_any_profile.

Example C92_golang :
  all_begun_under (fun _ => 1048576) (fun rule => rule <> None) (two (Some "golang"%string) 1001 1002) fresh_meter /\
  runs_for (two (Some "golang"%string) 1001 1002) 7 (sub_config (Some "golang"%string) 1001).
Proof. exact two_golang_begun. Qed.

(** Not without a profile: through a set-uid file the program gets root and with it any time. *)
Theorem C92_without_profile_refuted :
  forall tick xcpu T, 1 <= tick ->
  all_begun_under (fun _ => 1048576) (fun rule => rule = None) (two None 1001 1002) fresh_meter /\
  runs_for (two None 1001 1002) 7 (sub_config None 1001) /\
  exists evs w' m' P, mruns tick xcpu (two None 1001 1002) fresh_meter evs w' m' /\ only_modelled evs /\
  w' 7%nat = Some (inl P) /\ T <= u_user (m' 7%nat).
Proof. exact without_profile_unbounded. Qed.
Print Assumptions C92_without_profile_refuted.

(** Two programs just started, of 1000 ms and 128 MiB each. *)
Example C92_two_begun :
  all_begun (fun _ => 1048576) (two (Some "c_cpp"%string) 1001 1002) fresh_meter /\
  runs_for (two (Some "c_cpp"%string) 1001 1002) 7 (sub_config (Some "c_cpp"%string) 1001) /\
  seconds (max_cpu_time (sub_config (Some "c_cpp"%string) 1001)) = 2 /\
  max_memory (sub_config (Some "c_cpp"%string) 1001) = 134217728 /\
  memory_limit_check_only (sub_config (Some "c_cpp"%string) 1001) = 0.
Proof. split; [exact two_begun|]. split; [exact two_runs_for|]. repeat split. Qed.

(** One of them runs in user mode until the kernel ends it: C92_cut_verdict and C92_reported apply. *)
Example C92_user_cut : exists evs w' m' o ru r ef,
  mruns 10000 (fun _ => true) (two (Some "c_cpp"%string) 1001 1002) fresh_meter evs w' m' /\ cpu_limits_left evs /\
  (forall sig, In (MHit 7 sig) evs -> sig <> 9 /\ sig <> 24) /\
  waited_for w' m' 7 o ru /\ u_sys (m' 7%nat) = 2000 /\
  RunSpec.judged (sub_config (Some "c_cpp"%string) 1001) (end_env (wait_status o) ru) o ru /\
  env_fits (end_env (wait_status o) ru) /\
  run (sub_config (Some "c_cpp"%string) 1001) (end_env (wait_status o) ru) = Returns (Val r) ef /\ signal r = 9.
Proof. exact user_time_seen. Qed.

(** A program with memory_limit_check_only: C92_checked_only_unbounded applies. *)
Example C92_check_only : all_begun (fun _ => 1048576) one fresh_meter /\ runs_for one 7 check_config /\
  memory_limit_check_only check_config = 1 /\ fst (p_rlim check_program RAs) = 18446744073709551615.
Proof. destruct one_begun as (A & B & C). split; [exact A|]. split; [exact B|]. split; [reflexivity|exact C]. Qed.
