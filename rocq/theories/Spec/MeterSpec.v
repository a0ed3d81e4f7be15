(** What is said about the time and the memory of judged programs. *)
From Coq Require Import ZArith Bool List String.
From Verif.Base Require Import CInt CStr.
From Verif.Model Require Import Config Runner Seccomp Child Program Meter.
From Verif.Spec Require Import Verdict RunSpec SandboxSpec ContainSpec.
Import ListNotations.
Open Scope list_scope.
Open Scope Z_scope.

(** A program that has just been started: it runs, so its time is below its limit; its image fitted in its address space;
    [own] is the largest amount of memory the judger had when it forked, which counts for the program too. *)
Definition begun (own : Z) (P : proc) (u : use) : Prop :=
  0 <= u_user u /\ 0 <= u_sys u /\
  (snd (p_rlim P RCpu) <> 18446744073709551615 -> u_time u < 1000000 * snd (p_rlim P RCpu)) /\
  (fst (p_rlim P RAs) <> 18446744073709551615 -> u_space u <= fst (p_rlim P RAs)) /\
  0 <= u_resident u <= u_space u /\ own <= u_peak u <= Z.max own (u_space u).

(** The programs of [w] are c_cpp or c_cpp_file_io programs that have just been started. *)
Definition all_begun (own : nat -> Z) (w : world) (m : meter) : Prop :=
  all_started w /\ forall p P, w p = Some (inl P) -> begun (own p) P (m p).

(** Process [p] was started for the configuration [c]. *)
Definition runs_for (w : world) (p : nat) (c : config) : Prop :=
  exists ptr P, w p = Some (inl P) /\ ContainSpec.judged c ptr P.

(** What wait4 tells about a process that has ended. *)
Definition ended_as (e : ending) (o : outcome) : Prop :=
  match e with Program.Exited n => o = Verdict.Exited n | Signaled sig => exists core, o = Killed sig core end.
Definition waited_for (w : world) (m : meter) (p : nat) (o : outcome) (ru : rusage) : Prop :=
  exists e, w p = Some (inr e) /\ ended_as e o /\
  us (ru_utime ru) = u_user (m p) /\ us (ru_stime ru) = u_sys (m p) /\ ru_maxrss ru = u_peak (m p) / 1024.

(** Nobody changes a CPU limit. *)
Definition cpu_limits_left (evs : list mevent) : Prop :=
  forall p sc, In (MCall p sc) evs -> sc_name sc = "prlimit64"%string -> sc_arg sc 1 <> 0.

(** The seconds the kernel allows for a limit in milliseconds. *)
Definition seconds (ms : Z) : Z := ms / 1000 + 1.

(** The same for programs under any of the profiles ([None] is no profile). *)
Definition all_begun_under (own : nat -> Z) (profile : option str -> Prop) (w : world) (m : meter) : Prop :=
  (forall p s, w p = Some s -> exists P c ptr, s = inl P /\ ContainSpec.judged c ptr P /\ as_user c /\ profile (seccomp_rule_name c)) /\
  forall p P, w p = Some (inl P) -> begun (own p) P (m p).

(** Only calls whose effect is modelled are made. *)
Definition only_modelled (evs : list mevent) : Prop := forall p sc, In (MCall p sc) evs -> In (sc_name sc) modelled.
