(** A call of the Python function run() and what it should mean. *)
From Coq Require Import ZArith Bool List Ascii String.
From Verif.Base Require Import CStr.
From Verif.Model Require Import Config Python.
From Verif.Spec Require Import IntText CmdLine Invocation.
Import ListNotations.
Open Scope list_scope.
Open Scope nat_scope.

(** The arguments, with their documented types. *)
Record py_call : Type := {
  y_max_cpu_time : Z; y_max_real_time : Z; y_max_memory : Z; y_max_stack : Z; y_max_output_size : Z;
  y_max_process_number : Z;
  y_exe_path : str; y_input_path : str; y_output_path : str; y_error_path : str;
  y_args : list str; y_env : list str;
  y_log_path : str; y_seccomp_rule_name : option str;
  y_uid : Z; y_gid : Z; y_memory_limit_check_only : Z }.

Definition ints_of (p : py_call) : list (string * Z) :=
  [("max_cpu_time", y_max_cpu_time p); ("max_real_time", y_max_real_time p); ("max_memory", y_max_memory p);
   ("max_stack", y_max_stack p); ("max_output_size", y_max_output_size p);
   ("max_process_number", y_max_process_number p); ("uid", y_uid p); ("gid", y_gid p);
   ("memory_limit_check_only", y_memory_limit_check_only p)]%string.
Definition strs_of (p : py_call) : list (string * str) :=
  [("exe_path", y_exe_path p); ("input_path", y_input_path p); ("output_path", y_output_path p);
   ("error_path", y_error_path p); ("log_path", y_log_path p)]%string.

(** The variables have these values. *)
Definition passes (vars : locals) (p : py_call) : Prop :=
  (forall n z, In (n, z) (ints_of p) -> vars n = PInt z) /\
  (forall n s, In (n, s) (strs_of p) -> vars n = PStr s) /\
  vars "args"%string = PList (map PStr (y_args p)) /\
  vars "env"%string = PList (map PStr (y_env p)) /\
  vars "seccomp_rule_name"%string = match y_seccomp_rule_name p with Some s => PStr s | None => PNone end.

(** The documented types (a bool is not an integer). *)
Definition well_typed (vars : locals) : Prop := exists p, passes vars p.

(** Some argument has another type; bool counts as an integer type. *)
Definition list_params : list string := ["args"; "env"]%string.
Definition int_params : list string :=
  ["max_cpu_time"; "max_real_time"; "max_memory"; "max_stack"; "max_output_size"; "max_process_number"; "uid"; "gid";
   "memory_limit_check_only"]%string.
Definition str_params : list string := ["exe_path"; "input_path"; "output_path"; "error_path"; "log_path"]%string.

Inductive wrong_type (vars : locals) : Prop :=
| wrong_list n : In n list_params -> (forall l, vars n <> PList l) -> wrong_type vars
| wrong_item n l v : In n list_params -> vars n = PList l -> In v l -> (forall s, v <> PStr s) -> wrong_type vars
| wrong_int n : In n int_params -> (forall z, vars n <> PInt z) -> (forall b, vars n <> PBool b) -> wrong_type vars
| wrong_str n : In n str_params -> (forall s, vars n <> PStr s) -> wrong_type vars
| wrong_rule : (forall s, vars "seccomp_rule_name"%string <> PStr s) -> vars "seccomp_rule_name"%string <> PNone ->
    wrong_type vars.

(** Some string argument holds a null byte. *)
Inductive holds_nul (vars : locals) : Prop :=
| nul_item n l s : In n list_params -> vars n = PList l -> In (PStr s) l -> ~ c_string s -> holds_nul vars
| nul_str n s : In n ("seccomp_rule_name"%string :: str_params) -> vars n = PStr s -> ~ c_string s -> holds_nul vars.

Definition usable (s : str) : Prop := s <> [] /\ c_string s.

Definition valid (p : py_call) : Prop :=
  (forall n z, In (n, z) (ints_of p) -> is_int z) /\
  (forall n s, In (n, s) (strs_of p) -> usable s) /\
  Forall usable (y_args p) /\ Forall usable (y_env p) /\
  List.length (y_args p) <= 254 /\ List.length (y_env p) <= 255 /\
  match y_seccomp_rule_name p with Some s => c_string s | None => True end.

(** -1 stands for the default of the judger. *)
Definition or_default (z default : Z) : Z := if (z =? -1)%Z then default else z.

(** The configuration that the call asks for. *)
Definition asks_for (p : py_call) (c : config) : Prop :=
  max_cpu_time c = y_max_cpu_time p /\ max_real_time c = y_max_real_time p /\ max_memory c = y_max_memory p /\
  max_stack c = or_default (y_max_stack p) 16777216 /\
  max_process_number c = y_max_process_number p /\ max_output_size c = y_max_output_size p /\
  memory_limit_check_only c = (if (or_default (y_memory_limit_check_only p) 0 =? 0)%Z then 0%Z else 1%Z) /\
  exe_path c = y_exe_path p /\ input_path c = Some (y_input_path p) /\ output_path c = Some (y_output_path p) /\
  error_path c = Some (y_error_path p) /\ log_path c = y_log_path p /\
  vector (y_exe_path p :: y_args p) (args c) /\ vector (y_env p) (env c) /\
  seccomp_rule_name c = match y_seccomp_rule_name p with Some [] => None | r => r end /\
  uid c = (or_default (y_uid p) 65534 mod 2 ^ 32)%Z /\ gid c = (or_default (y_gid p) 65534 mod 2 ^ 32)%Z.
