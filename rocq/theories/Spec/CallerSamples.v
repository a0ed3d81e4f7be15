(** A Python and a Node call for the world of Spec/JudgerSamples.v. *)
From Coq Require Import ZArith Bool List String.
From Verif.Base Require Import CInt CStr.
From Verif.Model Require Import Config Python NodeBinding.
From Verif.Spec Require Import PythonSpec NodeSpec.
Import ListNotations.
Open Scope Z_scope.

Definition py_sample : py_call :=
  {| y_max_cpu_time := 1000; y_max_real_time := 2000; y_max_memory := 134217728; y_max_stack := 33554432;
     y_max_output_size := -1; y_max_process_number := -1;
     y_exe_path := lit "/bin/prog"; y_input_path := lit "in"; y_output_path := lit "out"; y_error_path := lit "err";
     y_args := [lit "-x"]; y_env := [lit "A=1"];
     y_log_path := lit "judger.log"; y_seccomp_rule_name := Some (lit "general");
     y_uid := 65534; y_gid := 65534; y_memory_limit_check_only := 0 |}.
Definition py_vars (p : py_call) : locals := fun n =>
  match find (fun nz => String.eqb n (fst nz)) (ints_of p) with
  | Some (_, z) => PInt z
  | None => match find (fun ns => String.eqb n (fst ns)) (strs_of p) with
            | Some (_, s) => PStr s
            | None => if String.eqb n "args" then PList (map PStr (y_args p))
                      else if String.eqb n "env" then PList (map PStr (y_env p))
                      else match y_seccomp_rule_name p with Some s => PStr s | None => PNone end
            end
  end.

Definition js_sample : node_call := {|
  k_max_cpu_time := Some 1000; k_max_real_time := Some 2000; k_max_memory := Some 134217728; k_memory_limit_check_only := None;
  k_max_stack := Some 33554432; k_max_process_number := None; k_max_output_size := None; k_uid := Some 65534; k_gid := Some 65534;
  k_input_path := Some (lit "in"); k_output_path := Some (lit "out"); k_error_path := Some (lit "err"); k_exe_path := Some (lit "/bin/prog");
  k_log_path := None; k_seccomp_rule_name := Some (lit "general");
  k_args := [lit "-x"]; k_env := [lit "A=1"] |}.
Definition js_object (p : node_call) : string -> jsval := fun n =>
  match find (fun nz => String.eqb n (fst nz)) (k_ints p) with
  | Some (_, Some z) => JSNum z
  | Some (_, None) => JSNull
  | None => match find (fun ns => String.eqb n (fst ns)) (k_strs p) with
            | Some (_, Some s) => JSStr s
            | Some (_, None) => JSNull
            | None => if String.eqb n "args" then JSArr (map JSStr (k_args p))
                      else if String.eqb n "env" then JSArr (map JSStr (k_env p))
                      else JSNull
            end
  end.
