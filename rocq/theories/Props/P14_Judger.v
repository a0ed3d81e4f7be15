(** C63: the judger as a whole.  [judger W argv h out]: in the world [W] (results of all system
    calls, clocks, how a process is created) with the arguments [argv] the judger may go through
    the history [h] and end with the output [out] (Model/Judger.v).  Vocabulary: Spec/JudgerSpec.v;
    the command line: Spec/Invocation.v; the verdicts: Spec/Verdict.v; the sandbox:
    Spec/SandboxSpec.v. *)
From Coq Require Import ZArith Bool List String.
From Verif.Base Require Import CInt CStr.
From Verif.Model Require Import Config Runner Seccomp Child Argtable Main Messages.
From Verif.Model Require Import Timeout Judger.
From Verif.Spec Require Import Verdict RunSpec TimeoutSpec JudgerSpec JudgerSamples.
From Verif.Spec Require IntText SandboxSpec.
From Verif.Spec Require Import CmdLine Invocation MessageSpec OutputSpec.
From Verif.Spec Require Json.
From Verif.Proofs Require Import JudgerClaims JudgerSampleFacts.
Import ListNotations.
Open Scope list_scope.
Open Scope Z_scope.

(** The hypotheses of the theorems below are met by the histories of Spec/JudgerSamples.v: a
    program that succeeds, one that sends itself SIGUSR1, a failing set-up. *)
Example C63_histories :
  (forall bad, world_ok (sample_world bad)) /\
  Forall c_string sample_words /\ Forall short sample_words /\
  (exists c s t, judger (sample_world None) sample_argv (Ran c sample_success s) (Prints t 0) /\
     Json.json_text false t (result_object (mkResult 80 120 1536000 0 0 0 0)) /\
     measurable (sample_world None) (Ran c sample_success s)) /\
  (exists c s t, judger (sample_world (Some 2%nat)) sample_argv (Ran c sample_failed s) (Prints t 0) /\
     Json.json_text false t (result_object (mkResult 0 0 0 10 0 0 5)) /\
     measurable (sample_world (Some 2%nat)) (Ran c sample_failed s)).
Proof.
  split; [exact sample_world_ok|].
  split; [exact sample_c_string|]. split; [exact sample_short|].
  split; [destruct (sample_ok None sample_success (mkResult 80 120 1536000 0 0 0 0)) as (c & s & t & J & T & M & _)|
          destruct (sample_ok (Some 2%nat) sample_failed (mkResult 0 0 0 10 0 0 5)) as (c & s & t & J & T & M & _)].
  1,4: cbn; auto. 1,3: vm_compute; reflexivity.
  all: exists c, s, t; auto.
Qed.

(** Whatever the arguments and the world, something happens; and without any failing call. *)
Theorem C63_total : forall W prog ws es strays,
  Forall c_string ws -> world_ok W -> w_autoreap W = false ->
  reads judger_names (w_posix W) ws es strays -> harmless es ->
  exists h out, judger W (prog :: ws) h out /\ no_failure h.
Proof. exact c63_total. Qed.
Print Assumptions C63_total.

(** Every output is the help text, the version, a report of faults, or exactly one result; only
    for a command line without faults, as root and with limits that are accepted, a program is
    started. *)
Theorem C63_output : forall W prog ws h t st es strays,
  Forall c_string ws -> Forall short ws ->
  reads judger_names (w_posix W) ws es strays -> (forall x, In (Letter x) es -> ordinary x) ->
  judger W (prog :: ws) h (Prints t st) ->
  (mentions es "help" -> h = NothingRun /\ t = help_text /\ st = 0) /\
  (~ mentions es "help" -> mentions es "version" -> h = NothingRun /\ t = lit "Version: 2.1.1" ++ newline /\ st = 0) /\
  (~ mentions es "help" -> ~ mentions es "version" -> ~ faultless es strays ->
     h = NothingRun /\ st = 1 /\ exists acc fs, occurs [] es acc fs /\ t = report (first_ten (all_faults acc fs strays))) /\
  (~ mentions es "help" -> ~ mentions es "version" -> faultless es strays ->
     st = 0 /\ exists c r, configured_by es c /\ (forall py, Json.json_text py t (result_object r)) /\
       ((h = NothingRun /\ r = mkResult 0 0 0 0 0 (if w_uid W =? 0 then -1 else -5) 0 /\
         (w_uid W <> 0 \/ ~ limits_accepted c)) \/
        (w_uid W = 0 /\ limits_accepted c /\ exists ops s, h = Ran c ops s))).
Proof. intros W prog ws h t st es strays C. exact (c63_output W prog ws C h t st es strays). Qed.
Print Assumptions C63_output.

(** A result without error reports, by the decision table, what became of the process. *)
Theorem C63_verdict : forall W prog ws h t st r,
  Forall c_string ws -> world_ok W -> measurable W h ->
  judger W (prog :: ws) h (Prints t st) -> Json.json_text false t (result_object r) -> error r = 0 ->
  exists es strays c ops s o,
    reads judger_names (w_posix W) ws es strays /\ faultless es strays /\ configured_by es c /\
    h = Ran c ops s /\ w_uid W = 0 /\ limits_accepted c /\ happened W c ops o /\
    verdict_table (max_cpu_time c) (max_real_time c) (max_memory c) o (cpu_time r) (real_time r) (memory r) (verdict r) /\
    match o with
    | Exited n => signal r = 0 /\ exit_code r = n
    | Killed sg _ => signal r = sg /\ exit_code r = 0
    | Stopped _ => True
    end.
Proof. intros W prog ws h t st r C. exact (c63_verdict W prog ws C h t st r). Qed.
Print Assumptions C63_verdict.

(** SUCCESS: the configured program was executed in the complete sandbox, exited with 0 by
    itself, and stayed within the limits. *)
Theorem C63_success : forall W prog ws h t st r,
  Forall c_string ws -> world_ok W -> measurable W h ->
  judger W (prog :: ws) h (Prints t st) -> Json.json_text false t (result_object r) ->
  error r = 0 -> verdict r = 0 ->
  exists es strays c ops s,
    reads judger_names (w_posix W) ws es strays /\ faultless es strays /\ configured_by es c /\
    h = Ran c ops s /\ w_uid W = 0 /\ limits_accepted c /\
    sandboxed W c /\ by_the_program ops (Sys (Exit 0)) /\
    exit_code r = 0 /\ signal r = 0 /\ within_limits c r.
Proof. intros W prog ws h t st r C. exact (c63_success W prog ws C h t st r). Qed.
Print Assumptions C63_success.

(** In every history, finished or not, a program only runs in the complete sandbox. *)
Theorem C63_sandboxed : forall W prog ws c ops s out,
  Forall c_string ws -> world_ok W -> judger W (prog :: ws) (Ran c ops s) out -> In Execs ops ->
  exists es strays, reads judger_names (w_posix W) ws es strays /\ faultless es strays /\ configured_by es c /\
    w_uid W = 0 /\ limits_accepted c /\ sandboxed W c.
Proof. intros W prog ws c ops s out C. exact (c63_sandboxed W prog ws C c ops s out). Qed.
Print Assumptions C63_sandboxed.

(** A program that was not started is never reported as successful ... *)
Theorem C63_not_started : forall W prog ws h t st r,
  Forall c_string ws -> world_ok W -> measurable W h ->
  judger W (prog :: ws) h (Prints t st) -> Json.json_text false t (result_object r) ->
  ~ program_started h -> ~ (error r = 0 /\ verdict r = 0).
Proof. intros W prog ws h t st r C. exact (c63_not_started W prog ws C h t st r). Qed.
Print Assumptions C63_not_started.

(** ... but as a SYSTEM_ERROR, provided that nobody interferes and that the failure can be
    signalled (SIGUSR1 has its default action, the log entry fits, no whitelist forbids it). *)
Theorem C63_failed_set_up : forall W prog ws c ops s t st r,
  Forall c_string ws -> world_ok W -> measurable W (Ran c ops s) ->
  judger W (prog :: ws) (Ran c ops s) (Prints t st) -> Json.json_text false t (result_object r) -> error r = 0 ->
  ~ In Execs ops -> undisturbed ops ->
  max_cpu_time c <= 2147482647 -> ce_usr1_default (w_child W) = true -> SandboxSpec.log_fits (w_child W) c (w_k0 W) ->
  ~ SandboxSpec.whitelist_rule (seccomp_rule_name c) ->
  (forall k sc, set_up W c = CKilled 31 k -> In sc (ce_libc_calls (w_child W)) -> filters_action (k_filter k) sc <> ActKill) ->
  verdict r = 5 /\ signal r = 10.
Proof. intros W prog ws c ops s t st r C. exact (c63_failed_set_up W prog ws C c ops s t st r). Qed.
Print Assumptions C63_failed_set_up.

(** The converse is false: a program in its complete sandbox can make the judger report a
    SYSTEM_ERROR. *)
Theorem C63_system_error_refuted : exists W ws c ops s t r,
  world_ok W /\ measurable W (Ran c ops s) /\ judger W ws (Ran c ops s) (Prints t 0) /\
  Json.json_text false t (result_object r) /\ error r = 0 /\ verdict r = 5 /\
  undisturbed ops /\ by_the_program ops (Sys (Die 10 false)) /\ sandboxed W c.
Proof.
  destruct (sample_ok None sample_forged (mkResult 0 120 0 10 0 0 5)) as (c & s & t & J & T & M & _).
  { cbn; auto. } { vm_compute. reflexivity. }
  exists (sample_world None), sample_argv, c, sample_forged, s, t, (mkResult 0 120 0 10 0 0 5).
  pose proof sample_c_string as C.
  split; [apply sample_world_ok|]. split; [exact M|]. split; [exact J|]. split; [exact T|]. split; [reflexivity|]. split; [reflexivity|].
  split; [split; [|split]; intros; cbn; intuition discriminate|].
  split; [exists (to_sleep ++ [Execs; Sys (Tick 120000)]), reaped; split; [reflexivity|cbn; tauto]|].
  destruct (C63_sandboxed _ _ _ _ _ _ _ C (sample_world_ok None) J) as (es & strays & _ & _ & _ & _ & _ & Sb); [cbn; tauto|exact Sb].
Qed.
Print Assumptions C63_system_error_refuted.
