(** Assumptions on executions, for the statements about the timeout. *)
From Coq Require Import ZArith Bool List.
From Verif.Base Require Import CInt CStr.
From Verif.Model Require Import Config Runner Timeout.
From Verif.Spec Require Import Verdict RunSpec.
Import ListNotations.
Open Scope Z_scope.

(** The memory of the dead argument structure keeps its contents. *)
Definition args_intact (ops : list op) : Prop := forall z, ~ In (KillerJunk z) ops.
(** The thread can be detached and no signal handler interrupts its sleep. *)
Definition not_interrupted (ops : list op) : Prop := ~ In KillerFail ops.
(** Nobody adjusts the wall clock. *)
Definition steady_clock (ops : list op) : Prop := forall d, ~ In (SetClock d) ops.
(** fork, pthread_create and wait4 succeed. *)
Definition calls_succeed (ops : list op) : Prop := ~ In ParentFail ops.
(** The program is never stopped. *)
Definition never_stopped (ops : list op) : Prop := forall sig, ~ In (StopP sig) ops.

(** Who performs an operation. *)
Inductive agent : Type := AParent | AKiller | AKernel.
Definition acts (a : agent) (o : op) : Prop :=
  match a, o with
  | AParent, (Parent | ParentFail | Wait _) => True
  | AKiller, (Killer | KillerFail | KillerJunk _ | KillerCancel) => True
  | AKernel, Deliver => True
  | _, _ => False
  end.
(** It can make progress in a state, without any failure. *)
Definition can_act (P : tparams) (a : agent) (s : tstate) : Prop :=
  exists o, acts a o /\ o <> ParentFail /\ o <> KillerFail /\ (forall z, o <> KillerJunk z) /\
            step P s o <> None.

(** Nobody who can act is kept waiting for more than [lag] microseconds: over
    any stretch [mid] of the execution during which [a] could act at every
    moment but did not, at most [lag] passes. *)
Definition prompt (P : tparams) (lag : Z) (s0 : tstate) (ops : list op) : Prop :=
  forall pre mid post s1 s2 a,
    ops = pre ++ mid ++ post ->
    exec P s0 pre = Some s1 -> exec P s1 mid = Some s2 ->
    (forall m1 m2 s, mid = m1 ++ m2 -> exec P s1 m1 = Some s -> can_act P a s) ->
    (forall o, In o mid -> ~ acts a o) ->
    mono s2 - mono s1 <= lag.

(** run() has returned. *)
Definition returned (s : tstate) (r : result) : Prop := ppc s = PReturned (Val r).

(** wait4 reports a sane resource usage, less than 2^31 ms of CPU time. *)
Definition usage_ok (ru : rusage) : Prop :=
  tv_ok (ru_utime ru) /\ rss_ok ru /\ cpu_ms ru <= INT_MAX.
Definition usages_ok (ops : list op) : Prop := forall ru, In (Wait ru) ops -> usage_ok ru.
(** The wall clock stays within 2^50 seconds, the execution takes less than
    2147483 s (24.8 days, the range of a C int in ms). *)
Definition clocks_fit (m w : Z) (s : tstate) : Prop :=
  0 <= w /\ w + (mono s - m) < 1000000 * 2 ^ 50 /\ mono s - m < 2147483000000.

(** The timeout thread has read both of its arguments when run() leaves the
    block that holds them (in reality nothing enforces this). *)
Definition args_read_first (P : tparams) (s0 : tstate) (ops : list op) : Prop :=
  forall pre post s1 w,
    ops = pre ++ Parent :: post -> exec P s0 pre = Some s1 -> ppc s1 = PInBlock w ->
    kpc s1 <> KStart /\ forall pid, kpc s1 <> KGotPid pid.
