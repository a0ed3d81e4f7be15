(** The constants of src/runner.h by name, and those of the Python and Node
    bindings (those of the Lua binding are in LuaBinding). *)
From Coq Require Import ZArith List String.
From Verif.Model Require Import Config.
Import ListNotations.
Open Scope Z_scope.

(** src/runner.h:26-39 *)
Definition error_enum : list (string * Z) :=
  [("SUCCESS", SUCCESS); ("INVALID_CONFIG", INVALID_CONFIG); ("FORK_FAILED", FORK_FAILED); ("PTHREAD_FAILED", PTHREAD_FAILED);
   ("WAIT_FAILED", WAIT_FAILED); ("ROOT_REQUIRED", ROOT_REQUIRED); ("LOAD_SECCOMP_FAILED", LOAD_SECCOMP_FAILED);
   ("SETRLIMIT_FAILED", SETRLIMIT_FAILED); ("DUP2_FAILED", DUP2_FAILED); ("SETUID_FAILED", SETUID_FAILED);
   ("EXECVE_FAILED", EXECVE_FAILED); ("SPJ_ERROR", SPJ_ERROR)]%string.

(** src/runner.h:63-70; a run that ends well has the result SUCCESS. *)
Definition result_enum : list (string * Z) :=
  [("WRONG_ANSWER", WRONG_ANSWER); ("CPU_TIME_LIMIT_EXCEEDED", CPU_TIME_LIMIT_EXCEEDED);
   ("REAL_TIME_LIMIT_EXCEEDED", REAL_TIME_LIMIT_EXCEEDED); ("MEMORY_LIMIT_EXCEEDED", MEMORY_LIMIT_EXCEEDED);
   ("RUNTIME_ERROR", RUNTIME_ERROR); ("SYSTEM_ERROR", SYSTEM_ERROR)]%string.

(** bindings/Python/_judger/__init__.py:4-25; 0x020101 = 131329. *)
Definition python_constants : list (string * Z) :=
  [("UNLIMITED", -1); ("VERSION", 131329);
   ("RESULT_SUCCESS", 0); ("RESULT_WRONG_ANSWER", -1); ("RESULT_CPU_TIME_LIMIT_EXCEEDED", 1);
   ("RESULT_REAL_TIME_LIMIT_EXCEEDED", 2); ("RESULT_MEMORY_LIMIT_EXCEEDED", 3); ("RESULT_RUNTIME_ERROR", 4);
   ("RESULT_SYSTEM_ERROR", 5);
   ("ERROR_INVALID_CONFIG", -1); ("ERROR_FORK_FAILED", -2); ("ERROR_PTHREAD_FAILED", -3); ("ERROR_WAIT_FAILED", -4);
   ("ERROR_ROOT_REQUIRED", -5); ("ERROR_LOAD_SECCOMP_FAILED", -6); ("ERROR_SETRLIMIT_FAILED", -7);
   ("ERROR_DUP2_FAILED", -8); ("ERROR_SETUID_FAILED", -9); ("ERROR_EXECVE_FAILED", -10); ("ERROR_SPJ_ERROR", -11)]%string.

(** bindings/NodeJS/judger.cc:208-229. *)
Definition node_constants : list (string * Z) :=
  [("UNLIMITED", -1); ("VERSION", 131329);
   ("RESULT_SUCCESS", 0); ("RESULT_WRONG_ANSWER", -1); ("RESULT_CPU_TIME_LIMIT_EXCEEDED", 1);
   ("RESULT_REAL_TIME_LIMIT_EXCEEDED", 2); ("RESULT_MEMORY_LIMIT_EXCEEDED", 3); ("RESULT_RUNTIME_ERROR", 4);
   ("RESULT_SYSTEM_ERROR", 5);
   ("ERROR_INVALID_CONFIG", -1); ("ERROR_FORK_FAILED", -2); ("ERROR_PTHREAD_FAILED", -3); ("ERROR_WAIT_FAILED", -4);
   ("ERROR_ROOT_REQUIRED", -5); ("ERROR_LOAD_SECCOMP_FAILED", -6); ("ERROR_SETRLIMIT_FAILED", -7);
   ("ERROR_DUP2_FAILED", -8); ("ERROR_SETUID_FAILED", -9); ("ERROR_EXECVE_FAILED", -10); ("ERROR_SPJ_ERROR", -11)]%string.
