(** src/rules/*.c: the seccomp filters.

    libseccomp is modelled by its documented behaviour: a context is a default
    action and a list of rules; a loaded filter gives a native system call the
    action of a rule that matches (system call name and all argument
    comparisons), otherwise the default action; a call through a foreign ABI
    (i386, x32 on x86-64) gets the bad-architecture action, KILL.  In every
    filter of /repo all rules of one system call have the same action, so the
    order among matching rules is irrelevant (Proofs/SeccompProofs.v).
    System calls are identified by name; SCMP_SYS(x) is "x". *)
From Coq Require Import ZArith Bool List String.
From Verif.Base Require Import CInt CStr.
From Verif.Model Require Import Config.
Import ListNotations.
Open Scope Z_scope.

(** One system call as the filter sees it: ABI, name, and six 64-bit arguments. *)
Record syscall : Type := mkSys {
  sc_native : bool;
  sc_name : string;
  sc_arg : nat -> Z
}.

Inductive action : Type :=
| ActAllow
| ActKill
| ActErrno (e : Z).

(** SCMP_CMP(arg, op, ...) for the operators used. *)
Inductive cmp : Type :=
| CmpEq (arg : nat) (v : Z)            (* SCMP_CMP_EQ *)
| CmpNe (arg : nat) (v : Z)            (* SCMP_CMP_NE *)
| CmpMasked (arg : nat) (mask v : Z).  (* SCMP_CMP_MASKED_EQ *)

Definition cmp_holds (sc : syscall) (c : cmp) : bool :=
  match c with
  | CmpEq a v => sc_arg sc a =? v
  | CmpNe a v => negb (sc_arg sc a =? v)
  | CmpMasked a m v => Z.land (sc_arg sc a) m =? v
  end.

(** seccomp_rule_add(ctx, r_act, SCMP_SYS(r_name), n, r_cmps). *)
Record rule : Type := mkRule { r_act : action; r_name : string; r_cmps : list cmp }.

Record filter : Type := mkFilter { f_default : action; f_rules : list rule }.

Definition rule_matches (sc : syscall) (r : rule) : bool :=
  String.eqb (sc_name sc) (r_name r) && forallb (cmp_holds sc) (r_cmps r).

(** Action of a loaded filter on a system call. *)
Definition filter_action (f : filter) (sc : syscall) : action :=
  if negb (sc_native sc) then ActKill
  else match find (rule_matches sc) (f_rules f) with
       | Some r => r_act r
       | None => f_default f
       end.

(** <fcntl.h> on x86-64. *)
Definition O_WRONLY : Z := 1.
Definition O_RDWR : Z := 2.
(** <errno.h> *)
Definition EACCES : Z := 13.

(** The sequence seccomp_init, seccomp_rule_add for every rule in order,
    seccomp_load: [ok n] tells whether the n-th of these calls succeeds.  Any
    failure makes the C function return LOAD_SECCOMP_FAILED; the result is the
    filter that has been loaded.  (seccomp_release only frees memory.) *)
Fixpoint add_rules (ok : nat -> bool) (n : nat) (done todo : list rule) : option (list rule * nat) :=
  match todo with
  | [] => Some (done, n)
  | r :: rest => if ok n then add_rules ok (S n) (done ++ [r]) rest else None
  end.

Definition load_filter (ok : nat -> bool) (default : action) (rules : list rule) : option filter :=
  if negb (ok O) then None                         (* seccomp_init returned NULL *)
  else match add_rules ok 1 [] rules with
       | None => None                              (* seccomp_rule_add != 0 *)
       | Some (rs, n) =>
           if ok n then Some (mkFilter default rs) (* seccomp_load == 0 *)
           else None
       end.

Definition allow (nm : string) (cs : list cmp) : rule := mkRule ActAllow nm cs.
Definition kill_ (nm : string) (cs : list cmp) : rule := mkRule ActKill nm cs.

Open Scope string_scope.

(** src/rules/c_cpp.c:12-38 *)
Definition c_cpp_whitelist : list string :=
  ["access"; "arch_prctl"; "brk"; "clock_gettime"; "close"; "exit_group"; "faccessat";
   "fstat"; "futex"; "getrandom"; "lseek"; "mmap"; "mprotect"; "munmap"; "newfstatat";
   "pread64"; "prlimit64"; "read"; "readlink"; "readv"; "rseq"; "set_robust_list";
   "set_tid_address"; "write"; "writev"].

(** src/rules/c_cpp.c:49-84; [exe_ptr] is the value of the pointer
    [_config->exe_path]. *)
Definition c_cpp_rules (exe_ptr : Z) (allow_write_file : bool) : list rule :=
  map (fun n => allow n []) c_cpp_whitelist ++
  [allow "execve" [CmpEq 0 exe_ptr]] ++
  (if allow_write_file then
     [allow "open" []; allow "openat" []; allow "dup" []; allow "dup2" []; allow "dup3" []]
   else
     [allow "open" [CmpMasked 1 (Z.lor O_WRONLY O_RDWR) 0];
      allow "openat" [CmpMasked 2 (Z.lor O_WRONLY O_RDWR) 0]]).

(** src/rules/c_cpp.c:11-91 *)
Definition c_cpp_seccomp_rules_ (ok : nat -> bool) (exe_ptr : Z) (allow_write_file : bool) : option filter :=
  load_filter ok ActKill (c_cpp_rules exe_ptr allow_write_file).

(** src/rules/c_cpp.c:93-95.  The definition has a second parameter that the
    declaration used by child.c lacks; it is ignored. *)
Definition c_cpp_seccomp_rules (ok : nat -> bool) (exe_ptr : Z) : option filter :=
  c_cpp_seccomp_rules_ ok exe_ptr false.

(** src/rules/c_cpp_file_io.c:5-7 *)
Definition c_cpp_file_io_seccomp_rules (ok : nat -> bool) (exe_ptr : Z) : option filter :=
  c_cpp_seccomp_rules_ ok exe_ptr true.

(** Rules against opening for writing: src/rules/general.c:40-52 and
    src/rules/golang.c:32-44. *)
Definition no_write_open : list rule :=
  [kill_ "open" [CmpMasked 1 O_WRONLY O_WRONLY];
   kill_ "open" [CmpMasked 1 O_RDWR O_RDWR];
   kill_ "openat" [CmpMasked 2 O_WRONLY O_WRONLY];
   kill_ "openat" [CmpMasked 2 O_RDWR O_RDWR]].

(** #ifdef __NR_execveat, src/rules/general.c:15-17, golang.c:15-17, node.c:15-17. *)
Definition execveat_if (has : bool) : list string := if has then ["execveat"] else [].

(** src/rules/general.c:12-18 *)
Definition general_blacklist (has_execveat : bool) : list string :=
  ["clone"; "fork"; "vfork"; "kill"] ++ execveat_if has_execveat.

(** src/rules/general.c:11-59 *)
Definition general_seccomp_rules (ok : nat -> bool) (has_execveat : bool) (exe_ptr : Z) : option filter :=
  load_filter ok ActAllow
    (map (fun n => kill_ n []) (general_blacklist has_execveat) ++
     [mkRule (ActErrno EACCES) "socket" []] ++
     [kill_ "execve" [CmpNe 0 exe_ptr]] ++
     no_write_open).

(** src/rules/golang.c:12-18 and src/rules/node.c:12-18 *)
Definition golang_blacklist (has_execveat : bool) : list string :=
  ["socket"; "fork"; "vfork"; "kill"] ++ execveat_if has_execveat.
Definition node_blacklist (has_execveat : bool) : list string :=
  ["socket"; "fork"; "vfork"; "kill"] ++ execveat_if has_execveat.

(** src/rules/golang.c:11-51 *)
Definition golang_seccomp_rules (ok : nat -> bool) (has_execveat : bool) : option filter :=
  load_filter ok ActAllow
    (map (fun n => kill_ n []) (golang_blacklist has_execveat) ++ no_write_open).

(** src/rules/node.c:11-36 *)
Definition node_seccomp_rules (ok : nat -> bool) (has_execveat : bool) : option filter :=
  load_filter ok ActAllow (map (fun n => kill_ n []) (node_blacklist has_execveat)).

(** src/child.c:140-171: selection by name.  [None]: CHILD_ERROR_EXIT
    (LOAD_SECCOMP_FAILED); [Some None]: no filter requested. *)
Definition select_filter (ok : nat -> bool) (has_execveat : bool) (exe_ptr : Z)
           (name : option str) : option (option filter) :=
  match name with
  | None => Some None
  | Some nm =>
      let r :=
        if str_eqb (lit "c_cpp") nm then c_cpp_seccomp_rules ok exe_ptr
        else if str_eqb (lit "c_cpp_file_io") nm then c_cpp_file_io_seccomp_rules ok exe_ptr
        else if str_eqb (lit "general") nm then general_seccomp_rules ok has_execveat exe_ptr
        else if str_eqb (lit "golang") nm then golang_seccomp_rules ok has_execveat
        else if str_eqb (lit "node") nm then node_seccomp_rules ok has_execveat
        else None
      in match r with None => None | Some f => Some (Some f) end
  end.
