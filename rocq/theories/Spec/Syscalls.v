(** Which system calls each seccomp profile is meant to permit, written as
    predicates on a call (ABI, name, arguments); no definition of the rule
    tables or of the filter evaluation is used. *)
From Coq Require Import ZArith Bool List String.
From Verif.Model Require Import Seccomp.
Import ListNotations.
Open Scope Z_scope.
Open Scope string_scope.

(** Access mode of an open(2) flag word: 0 read only, 1 write only, 2 read/write. *)
Definition access_mode (flags : Z) : Z := flags mod 4.
Definition read_only (flags : Z) : Prop := access_mode flags = 0.
(** The flag word has the O_WRONLY bit or the O_RDWR bit. *)
Definition write_bits (flags : Z) : Prop := access_mode flags <> 0.
(** O_CREAT = 0x40 and O_TRUNC = 0x200: the call may create / truncate. *)
Definition may_create (flags : Z) : Prop := Z.testbit flags 6 = true.
Definition may_truncate (flags : Z) : Prop := Z.testbit flags 9 = true.

(** The flag argument of the two open calls. *)
Definition open_flags (sc : syscall) : option Z :=
  if String.eqb (sc_name sc) "open" then Some (sc_arg sc 1)
  else if String.eqb (sc_name sc) "openat" then Some (sc_arg sc 2)
  else None.

Definition harmless : list string :=
  ["read"; "write"; "readv"; "writev"; "pread64"; "lseek"; "close"; "access"; "faccessat";
   "readlink"; "fstat"; "newfstatat"; "mmap"; "munmap"; "mprotect"; "brk"; "arch_prctl";
   "set_tid_address"; "set_robust_list"; "rseq"; "prlimit64"; "futex"; "getrandom";
   "clock_gettime"; "exit_group"].

(** c_cpp: what may be executed. *)
Definition c_cpp_permits (exe_ptr : Z) (sc : syscall) : Prop :=
  sc_native sc = true /\
  (In (sc_name sc) harmless \/
   (sc_name sc = "execve" /\ sc_arg sc 0 = exe_ptr) \/
   (exists fl, open_flags sc = Some fl /\ read_only fl)).

(** c_cpp_file_io: the same with unrestricted open and dup. *)
Definition c_cpp_file_io_permits (exe_ptr : Z) (sc : syscall) : Prop :=
  sc_native sc = true /\
  (In (sc_name sc) harmless \/
   (sc_name sc = "execve" /\ sc_arg sc 0 = exe_ptr) \/
   In (sc_name sc) ["open"; "openat"; "dup"; "dup2"; "dup3"]).

Definition is_execveat (known : bool) (sc : syscall) : Prop :=
  known = true /\ sc_name sc = "execveat".

(** general: what is killed, and what fails with EACCES (13). *)
Definition general_kills (known : bool) (exe_ptr : Z) (sc : syscall) : Prop :=
  sc_native sc = false \/
  In (sc_name sc) ["clone"; "fork"; "vfork"; "kill"] \/ is_execveat known sc \/
  (sc_name sc = "execve" /\ sc_arg sc 0 <> exe_ptr) \/
  (exists fl, open_flags sc = Some fl /\ write_bits fl).

Definition golang_kills (known : bool) (sc : syscall) : Prop :=
  sc_native sc = false \/
  In (sc_name sc) ["socket"; "fork"; "vfork"; "kill"] \/ is_execveat known sc \/
  (exists fl, open_flags sc = Some fl /\ write_bits fl).

Definition node_kills (known : bool) (sc : syscall) : Prop :=
  sc_native sc = false \/
  In (sc_name sc) ["socket"; "fork"; "vfork"; "kill"] \/ is_execveat known sc.
