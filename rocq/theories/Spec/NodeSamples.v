(** A sample call of the Node function run(). *)
From Coq Require Import ZArith List Ascii String.
From Verif.Base Require Import CStr.
From Verif.Model Require Import Config NodeBinding.
From Verif.Spec Require Import NodeSpec.
Import ListNotations.
Open Scope list_scope.

Definition node_object : string -> jsval := fun n =>
  if String.eqb n "max_cpu_time" then JSNum 1000
  else if String.eqb n "max_memory" then JSNum 134217728
  else if String.eqb n "uid" then JSNum 0
  else if String.eqb n "exe_path" then JSStr (lit "/bin/echo")
  else if String.eqb n "input_path" then JSStr (lit "/tmp/1.in")
  else if String.eqb n "seccomp_rule_name" then JSStr (lit "c_cpp")
  else if String.eqb n "args" then JSArr [JSStr (lit "hello"); JSNull; JSStr (lit "x=1")]
  else if String.eqb n "env" then JSArr [JSStr (lit "PATH=/bin")]
  else JSNull.
Definition node_sample : node_call := {|
  k_max_cpu_time := Some 1000%Z; k_max_real_time := None; k_max_memory := Some 134217728%Z; k_memory_limit_check_only := None;
  k_max_stack := None; k_max_process_number := None; k_max_output_size := None; k_uid := Some 0%Z; k_gid := None;
  k_input_path := Some (lit "/tmp/1.in"); k_output_path := None; k_error_path := None; k_exe_path := Some (lit "/bin/echo");
  k_log_path := None; k_seccomp_rule_name := Some (lit "c_cpp");
  k_args := [lit "hello"; lit "x=1"]; k_env := [lit "PATH=/bin"] |}.
