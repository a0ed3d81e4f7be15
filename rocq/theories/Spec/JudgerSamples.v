(** A world and some histories for the examples about the judger as a whole. *)
From Coq Require Import ZArith Bool List String.
From Verif.Base Require Import CInt CStr.
From Verif.Model Require Import Config Runner Child Timeout Judger.
From Verif.Spec Require Import Samples ChildSamples.
Import ListNotations.
Open Scope Z_scope.

(** A root judger; [bad]: the number of the call of child_process that fails, if any. *)
Definition sample_world (bad : option nat) : world :=
  mkWorld false 0 4242 false (sample_child_env bad) sample_log sample_k0 7 1000000000.

Definition sample_words : list str :=
  map lit ["--exe_path=/bin/prog"; "--max_real_time=2000"; "--max_cpu"; "1000"; "--max_memory=134217728";
           "--max_stack=33554432"; "--args=-x"; "--env=A=1"; "--seccomp_rule_name=general"]%string.
Definition sample_argv : list str := lit "judger" :: sample_words.

Definition to_sleep : list gop := map Sys [Parent; Parent; Parent; Killer; Killer; Parent; Killer; Killer].
Definition reaped : list gop := map Sys [Wait sample_usage; Parent; Parent].

(** The program exits with 0 after 0.12 s. *)
Definition sample_success : list gop := to_sleep ++ [Execs; Sys (Tick 120000); Sys (Exit 0)] ++ reaped.
(** The program sends itself SIGUSR1. *)
Definition sample_forged : list gop := to_sleep ++ [Execs; Sys (Tick 120000); Sys (Die 10 false)] ++ reaped.
(** The set-up fails. *)
Definition sample_failed : list gop := to_sleep ++ [Sys (Tick 120); Sys (Die 10 false)] ++ reaped.
