(** Programs under their seccomp filters: the system calls of processes that
    src/child.c has started with one of the profiles of src/rules/*.c.

    The kernel's part follows the manual pages of the calls in c_cpp_whitelist
    and of open, dup, execve, clone and the setuid family, as far as descriptors, limits,
    credentials, threads and filters go; memory and time are
    not modelled, file contents are in Model/Files.v.  Any other call that a filter lets through may change the
    world in any way ([ex_other]). *)
From Coq Require Import ZArith Bool List String.
From Verif.Base Require Import CInt CStr.
From Verif.Model Require Import Config Runner Seccomp Child.
Import ListNotations.
Open Scope list_scope.
Open Scope Z_scope.

(** A process: descriptors, limits, credentials, filters, the no_new_privs bit
    and its number of threads.  (All threads have the same filters: they are
    inherited, and seccomp and prctl are not modelled.) *)
Record proc : Type := mkProc {
  p_fds : list (option ofile);
  p_rlim : resource -> Z * Z;
  p_cred : cred;
  p_filters : list filter;
  p_nnp : bool;
  p_threads : nat
}.

(** src/child.c:173: the program as it starts.  seccomp_load (src/rules) sets
    no_new_privs. *)
Definition program_of (k : kstate) : proc :=
  mkProc (k_fds k) (k_rlim k) (k_cred k) (k_filter k) (match k_filter k with [] => false | _ => true end) 1.

Inductive ending : Type := Exited (n : Z) | Signaled (sig : Z).

(** The processes by number. *)
Definition world : Type := nat -> option (proc + ending).
Definition put (w : world) (p : nat) (s : proc + ending) : world := fun q => if Nat.eqb q p then Some s else w q.

Definition with_fds (P : proc) (fds : list (option ofile)) : proc :=
  mkProc fds (p_rlim P) (p_cred P) (p_filters P) (p_nnp P) (p_threads P).
Definition with_rlim (P : proc) (r : resource) (l : Z * Z) : proc :=
  mkProc (p_fds P) (fun r' => if res_eqb r r' then l else p_rlim P r') (p_cred P) (p_filters P) (p_nnp P) (p_threads P).
Definition with_threads (P : proc) (n : nat) : proc :=
  mkProc (p_fds P) (p_rlim P) (p_cred P) (p_filters P) (p_nnp P) n.

(** The access mode of the flags of open(2). *)
Definition mode_of (flags : Z) : omode :=
  match flags mod 4 with 0 => MRead | 1 => MWrite | _ => MOther end.

(** CAP_SYS_RESOURCE. *)
Definition privileged (P : proc) : bool := euid (p_cred P) =? 0.

(** prlimit(2): on itself, or on a process with the caller's real ids. *)
Definition may_limit (P Q : proc) : bool :=
  privileged P ||
  ((ruid (p_cred P) =? ruid (p_cred Q)) && (ruid (p_cred P) =? euid (p_cred Q)) && (ruid (p_cred P) =? suid (p_cred Q)) &&
   (rgid (p_cred P) =? rgid (p_cred Q)) && (rgid (p_cred P) =? egid (p_cred Q)) && (rgid (p_cred P) =? sgid (p_cred Q))).

(** RLIMIT_* of <sys/resource.h> on x86-64. *)
Definition resource_of (n : Z) : option resource :=
  match n with 0 => Some RCpu | 1 => Some RFsize | 3 => Some RStack | 6 => Some RNproc | 9 => Some RAs | _ => None end.

(** Credentials after execve: with no_new_privs they stay; otherwise a set-uid
    or set-gid file may change the effective and saved ids. *)
Definition exec_cred (nnp : bool) (c c' : cred) : Prop :=
  if nnp then c' = c else ruid c' = ruid c /\ rgid c' = rgid c /\ groups c' = groups c.

(** setuid(2), setreuid(2), setresuid(2) and their group versions: without privilege an
    id can only become the real, effective or saved one. *)
Definition set_id_calls : list string := ["setuid"; "setreuid"; "setresuid"; "setgid"; "setregid"; "setresgid"]%string.
Definition new_ids (P : proc) (c : cred) : Prop :=
  let o := p_cred P in
  groups c = groups o /\
  (privileged P = true \/
   ((forall u, In u [ruid c; euid c; suid c] -> In u [ruid o; euid o; suid o]) /\
    (forall g, In g [rgid c; egid c; sgid c] -> In g [rgid o; egid o; sgid o]))).

(** The calls whose effect is modelled. *)
Definition modelled : list string :=
  c_cpp_whitelist ++ ["execve"; "open"; "openat"; "dup"; "dup2"; "dup3"]%string ++ set_id_calls.

(** What a call of process [p] that passes its filters can do.  (Values read
    from memory, such as paths and limits, and the numbers of descriptors are
    arbitrary: more can happen in the model than in the kernel.) *)
Inductive executes (w : world) (p : nat) (P : proc) (sc : syscall) : world -> Prop :=
| ex_none : executes w p P sc w            (* it fails, or changes nothing that is modelled *)
| ex_open flags path id n :
    (sc_name sc = "open"%string /\ flags = sc_arg sc 1) \/ (sc_name sc = "openat"%string /\ flags = sc_arg sc 2) ->
    fd_get (p_fds P) n = None ->
    executes w p P sc (put w p (inl (with_fds P (fd_set (p_fds P) n (Some (mkOf id path (mode_of flags)))))))
| ex_dup old new d :
    In (sc_name sc) ["dup"; "dup2"; "dup3"]%string -> fd_get (p_fds P) old = Some d ->
    executes w p P sc (put w p (inl (with_fds P (fd_set (p_fds P) new (Some d)))))
| ex_close n :
    sc_name sc = "close"%string -> executes w p P sc (put w p (inl (with_fds P (fd_set (p_fds P) n None))))
| ex_prlimit q Q r soft hard :
    sc_name sc = "prlimit64"%string -> resource_of (sc_arg sc 1) = Some r ->
    (sc_arg sc 0 = 0 /\ q = p) \/ sc_arg sc 0 = Z.of_nat q ->
    w q = Some (inl Q) -> q = p \/ may_limit P Q = true ->
    soft <= hard -> hard <= snd (p_rlim Q r) \/ privileged P = true ->
    executes w p P sc (put w q (inl (with_rlim Q r (soft, hard))))
| ex_execve fds c :
    sc_name sc = "execve"%string ->
    (forall n d, fd_get fds n = Some d -> fd_get (p_fds P) n = Some d) ->    (* close-on-exec *)
    exec_cred (p_nnp P) (p_cred P) c ->
    executes w p P sc (put w p (inl (mkProc fds (p_rlim P) c (p_filters P) (p_nnp P) 1)))
| ex_ids c :
    In (sc_name sc) set_id_calls -> new_ids P c ->
    executes w p P sc (put w p (inl (mkProc (p_fds P) (p_rlim P) c (p_filters P) (p_nnp P) (p_threads P))))
| ex_exit : sc_name sc = "exit_group"%string -> executes w p P sc (put w p (inr (Exited (sc_arg sc 0 mod 256))))
| ex_thread :
    sc_name sc = "clone"%string -> executes w p P sc (put w p (inl (with_threads P (S (p_threads P)))))
| ex_other w' : ~ In (sc_name sc) modelled -> executes w p P sc w'.

Inductive event : Type :=
| Calls (p : nat) (sc : syscall)
| Hit (p : nat) (sig : Z).      (* terminated by a signal from the kernel or from outside (src/killer.c:10) *)

(** SCMP_ACT_KILL is SECCOMP_RET_KILL_THREAD: the calling thread ends; if it
    was the last, the process ends as if by SIGSYS. *)
Definition killed_thread (P : proc) : proc + ending :=
  if Nat.leb (p_threads P) 1 then inr (Signaled SIGSYS) else inl (with_threads P (p_threads P - 1)).

Inductive step (w : world) : event -> world -> Prop :=
| step_allowed p P sc w' : w p = Some (inl P) -> filters_action (p_filters P) sc = ActAllow -> executes w p P sc w' ->
    step w (Calls p sc) w'
| step_errno p P sc e : w p = Some (inl P) -> filters_action (p_filters P) sc = ActErrno e -> step w (Calls p sc) w
| step_killed p P sc : w p = Some (inl P) -> filters_action (p_filters P) sc = ActKill ->
    step w (Calls p sc) (put w p (killed_thread P))
| step_hit p P sig : w p = Some (inl P) -> step w (Hit p sig) (put w p (inr (Signaled sig))).

Inductive runs (w : world) : list event -> world -> Prop :=
| runs_nil : runs w [] w
| runs_cons e w1 evs w2 : step w e w1 -> runs w1 evs w2 -> runs w (e :: evs) w2.
