(** Vocabulary for statements about the judger as a whole: which histories are considered, and
    what happened in them.  Of the model only types are used. *)
From Coq Require Import ZArith Bool List.
From Verif.Base Require Import CInt CStr.
From Verif.Model Require Import Config Runner Child Timeout Judger.
From Verif.Spec Require Import Verdict RunSpec TimeoutSpec.
From Verif.Spec Require SandboxSpec.
Import ListNotations.
Open Scope Z_scope.

(** fork returns a pid, and a process as run() leaves it. *)
Definition world_ok (W : world) : Prop := 0 < w_pid W /\ SandboxSpec.forked (w_k0 W).

(** Nobody adjusts the wall clock, wait4 reports sane usages, everything takes less than 24 days. *)
Definition measurable (W : world) (h : history) : Prop :=
  match h with
  | NothingRun => True
  | Ran _ ops s =>
      (forall d, ~ In (Sys (SetClock d)) ops) /\ (forall ru, In (Sys (Wait ru)) ops -> usage_ok ru) /\
      clocks_fit (w_mono W) (w_wall W) (g_t s)
  end.

(** [x] happened after the process had become the program. *)
Definition by_the_program (ops : list gop) (x : gop) : Prop :=
  exists a b, ops = a ++ x :: b /\ In Execs a.

Definition program_started (h : history) : Prop :=
  match h with NothingRun => False | Ran _ ops _ => In Execs ops end.

(** The history accounts for outcome [o] of the process: the program did it, or child_process
    ended so before execve, or it came from outside.  (9 is SIGKILL.) *)
Definition happened (W : world) (c : config) (ops : list gop) (o : outcome) : Prop :=
  match o with
  | Exited n => by_the_program ops (Sys (Exit n)) \/ (exists k, set_up W c = CExit n k)
  | Killed sig core =>
      by_the_program ops (Sys (Die sig core)) \/ (exists k, set_up W c = CKilled sig k) \/
      In (Foreign sig core) ops \/ (sig = 9 /\ core = false /\ In (Sys Deliver) ops)
  | Stopped sig => In (Sys (StopP sig)) ops
  end.

(** Nobody but the judger and the program itself interferes with the process. *)
Definition undisturbed (ops : list gop) : Prop :=
  (forall sig core, ~ In (Foreign sig core) ops) /\ ~ In (Sys Deliver) ops /\ (forall sig, ~ In (Sys (StopP sig)) ops).

(** The complete sandbox was set up, in order, and then this program was executed. *)
Definition sandboxed (W : world) (c : config) : Prop :=
  exists k, set_up W c = CExec (exe_path c) (args c) (Config.env c) k /\
    flat_map SandboxSpec.performed (k_trace k) = SandboxSpec.sandbox_script c.

(** The measurements of a result are within the limits. *)
Definition within_limits (c : config) (r : result) : Prop :=
  ~ exceeded (max_cpu_time c) (cpu_time r) /\ ~ exceeded (max_real_time c) (real_time r) /\
  ~ exceeded (max_memory c) (memory r).
