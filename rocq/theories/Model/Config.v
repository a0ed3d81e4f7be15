(** Constants and structures of src/runner.h. *)
From Coq Require Import ZArith Bool List Ascii String.
From Verif.Base Require Import CInt CStr.
Import ListNotations.
Open Scope Z_scope.

(** src/runner.h:8 *)
Definition VERSION : Z := 131329. (* 0x020101 *)
(** src/runner.h:10 *)
Definition UNLIMITED : Z := -1.
(** src/runner.h:22-23 *)
Definition ARGS_MAX_NUMBER : nat := 256.
Definition ENV_MAX_NUMBER : nat := 256.

(** src/runner.h:26-39: error codes. *)
Definition SUCCESS             : Z := 0.
Definition INVALID_CONFIG      : Z := -1.
Definition FORK_FAILED         : Z := -2.
Definition PTHREAD_FAILED      : Z := -3.
Definition WAIT_FAILED         : Z := -4.
Definition ROOT_REQUIRED       : Z := -5.
Definition LOAD_SECCOMP_FAILED : Z := -6.
Definition SETRLIMIT_FAILED    : Z := -7.
Definition DUP2_FAILED         : Z := -8.
Definition SETUID_FAILED       : Z := -9.
Definition EXECVE_FAILED       : Z := -10.
Definition SPJ_ERROR           : Z := -11.

(** src/runner.h:63-70: verdict codes. *)
Definition WRONG_ANSWER             : Z := -1.
Definition CPU_TIME_LIMIT_EXCEEDED  : Z := 1.
Definition REAL_TIME_LIMIT_EXCEEDED : Z := 2.
Definition MEMORY_LIMIT_EXCEEDED    : Z := 3.
Definition RUNTIME_ERROR            : Z := 4.
Definition SYSTEM_ERROR             : Z := 5.

(** One element of [char *args[256]] / [char *env[256]] (src/runner.h:54-55):
    never written, NULL, or a pointer to a string. *)
Inductive cell : Type :=
| Uninit
| Null
| Ptr (s : str).

(** src/runner.h:42-60, [struct config].  A [char *] that is always set by the
    callers ([exe_path], [log_path]) is a [str]; one that is compared with NULL
    by the code is an [option].  [uid_t]/[gid_t] are unsigned 32-bit. *)
Record config : Type := mkConfig {
  max_cpu_time : Z;             (* int  *)
  max_real_time : Z;            (* int  *)
  max_memory : Z;               (* long *)
  max_stack : Z;                (* long *)
  max_process_number : Z;       (* int  *)
  max_output_size : Z;          (* long *)
  memory_limit_check_only : Z;  (* int  *)
  exe_path : str;
  input_path : option str;
  output_path : option str;
  error_path : option str;
  args : list cell;
  env : list cell;
  log_path : str;
  seccomp_rule_name : option str;
  uid : Z;
  gid : Z
}.

(** The fields hold values of their C types. *)
Definition config_typed (c : config) : Prop :=
  INT_MIN <= max_cpu_time c <= INT_MAX /\
  INT_MIN <= max_real_time c <= INT_MAX /\
  LONG_MIN <= max_memory c <= LONG_MAX /\
  LONG_MIN <= max_stack c <= LONG_MAX /\
  INT_MIN <= max_process_number c <= INT_MAX /\
  LONG_MIN <= max_output_size c <= LONG_MAX /\
  INT_MIN <= memory_limit_check_only c <= INT_MAX /\
  0 <= uid c < U32_MOD /\ 0 <= gid c < U32_MOD.

(** src/runner.h:73-81, [struct result]. *)
Record result : Type := mkResult {
  cpu_time : Z;   (* int  *)
  real_time : Z;  (* int  *)
  memory : Z;     (* long *)
  signal : Z;     (* int  *)
  exit_code : Z;  (* int  *)
  error : Z;      (* int  *)
  verdict : Z     (* int, the C field is called [result] *)
}.
