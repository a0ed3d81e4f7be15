(** Node calls that start no judger: an argument of 255 bytes; an environment without arguments. *)
From Coq Require Import ZArith Bool List Ascii String.
From Verif.Base Require Import CStr.
From Verif.Model Require Import NodeBinding.
From Verif.Spec Require Import NodeSpec CallerSamples.
Import ListNotations.
Open Scope list_scope.

Definition js_with (args env : list str) : node_call := {|
  k_max_cpu_time := Some 1000%Z; k_max_real_time := None; k_max_memory := None; k_memory_limit_check_only := None;
  k_max_stack := None; k_max_process_number := None; k_max_output_size := None; k_uid := Some 65534%Z; k_gid := None;
  k_input_path := Some (lit "in"); k_output_path := None; k_error_path := None; k_exe_path := Some (lit "/bin/prog");
  k_log_path := None; k_seccomp_rule_name := None; k_args := args; k_env := env |}.
Definition js_long : node_call := js_with [lit "-x"; repeat "a"%char 255] [].
Definition js_alone : node_call := js_with [] [lit "PATH=/bin"].
(** The object without a property "args". *)
Definition js_object_alone (p : node_call) : string -> jsval := fun n => if String.eqb n "args" then JSNull else js_object p n.
