(** A world and some histories for the examples of C89. *)
From Coq Require Import ZArith Bool List String.
From Verif.Base Require Import CInt CStr.
From Verif.Model Require Import Config Runner Child Timeout Judger NodeBinding Pipes.
From Verif.Spec Require Import Samples ChildSamples JudgerSamples NodeSpec.
Import ListNotations.
Open Scope Z_scope.

(** The judger is started with a pipe as standard output, its log file on descriptor 3. *)
Definition piped_k0 : kstate :=
  mkK [Some (mkOf 0 (lit "/dev/tty") MOther); Some (mkOf 2 (lit "pipe:[77]") MWrite);
       Some (mkOf 0 (lit "/dev/tty") MOther); Some (mkOf 1 (lit "judger.log") MAppend)]
      3 (fun _ => (18446744073709551615, 18446744073709551615))
      (mkCred 0 0 0 0 0 0 [0; 4; 27]) [] 0 [].
Definition piped_world : world :=
  mkWorld false 0 4242 false (sample_child_env None) sample_log piped_k0 7 1000000000.
(** That pipe, also by the name it has for the judger's children. *)
Definition the_pipe (o : ofile) : Prop := of_path o = lit "pipe:[77]" \/ of_path o = lit "/dev/stdout".

(** A Node call without output_path. *)
Definition js_open : node_call := {|
  k_max_cpu_time := Some 1000; k_max_real_time := Some 2000; k_max_memory := Some 134217728; k_memory_limit_check_only := None;
  k_max_stack := Some 33554432; k_max_process_number := None; k_max_output_size := None; k_uid := Some 65534; k_gid := Some 65534;
  k_input_path := Some (lit "in"); k_output_path := None; k_error_path := Some (lit "err"); k_exe_path := Some (lit "/bin/prog");
  k_log_path := None; k_seccomp_rule_name := Some (lit "general");
  k_args := [lit "-x"]; k_env := [lit "A=1"] |}.

(** The program makes a process and exits. *)
Definition sample_leaves : list gop := to_sleep ++ [Execs; Sys (Tick 120000); Sys Spawn; Sys (Exit 0)] ++ reaped.
Definition leaves : list tevent := [ForksBy 0 1 "clone3"; Ends 0].
(** Somebody stops the process while it is being set up. *)
Definition sample_stopped : list gop := to_sleep ++ [Sys (Tick 120); Sys (StopP 19)] ++ reaped.
