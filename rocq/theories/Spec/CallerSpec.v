(** What a result says about what happened. *)
From Coq Require Import ZArith Bool List.
From Verif.Base Require Import CInt CStr.
From Verif.Model Require Import Config Runner Child Timeout Judger.
From Verif.Spec Require Import Verdict RunSpec TimeoutSpec JudgerSpec.
Import ListNotations.
Open Scope Z_scope.

(** The result [r] reports truly on the history [h] of a judger with configuration [c]: it was refused for
    the reason given; or the judger ran, and unless [r] has an error, its verdict is that of the decision
    table for what happened to the process, with the measurements it names, and SUCCESS means that the
    program ran in its complete sandbox, exited with 0 itself, and stayed within the limits. *)
Definition reports (W : world) (c : config) (h : history) (r : result) : Prop :=
  (h = NothingRun /\ r = mkResult 0 0 0 0 0 (if w_uid W =? 0 then -1 else -5) 0 /\
   (w_uid W <> 0 \/ ~ limits_accepted c)) \/
  (exists ops s, h = Ran c ops s /\ w_uid W = 0 /\ limits_accepted c /\
    (error r = 0 -> exists o, happened W c ops o /\
       verdict_table (max_cpu_time c) (max_real_time c) (max_memory c) o (cpu_time r) (real_time r) (memory r) (verdict r) /\
       match o with
       | Exited n => signal r = 0 /\ exit_code r = n
       | Killed sg _ => signal r = sg /\ exit_code r = 0
       | Stopped _ => True
       end) /\
    (error r = 0 -> verdict r = 0 -> sandboxed W c /\ by_the_program ops (Sys (Exit 0)) /\ within_limits c r)).
