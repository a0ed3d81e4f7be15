(** A history for the examples about killed judgers. *)
From Coq Require Import ZArith List.
From Verif.Model Require Import Timeout Judger.
From Verif.Spec Require Import JudgerSamples.
Import ListNotations.
Open Scope Z_scope.

(** The program has been running for 0.12 s, the judger waits for it. *)
Definition sample_running : list gop := to_sleep ++ [Execs; Sys (Tick 120000)].
