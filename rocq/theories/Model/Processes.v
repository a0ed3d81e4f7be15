(** The processes of judged programs, as the kernel counts and accounts for them.

    src/child.c sets RLIMIT_NPROC while it is still root, then becomes the configured
    user, then calls execve; src/runner.c reads user time and peak memory from what
    wait4 returns for the one process it forked.  What these calls mean depends on all
    processes of the machine: the limit counts the processes of a user, and wait4
    reports what the process used and what was handed on by children it waited for.
    This file models those kernel rules over any number of judgers and processes.
    Model/Child.v has the calls of one child in detail; here its set-up is three steps.

    Simplifications.  A process number is never used twice.  Threads are not modelled
    (the kernel counts them like processes).  User time is in microseconds and system
    time is left out: src/runner.c does not read it. *)
From Coq Require Import ZArith Bool List Arith String.
From Verif.Base Require Import CInt CStr.
From Verif.Model Require Import Config Runner.
From Verif.Model Require Child Seccomp.
Import ListNotations.
Open Scope list_scope.
Open Scope Z_scope.

(** How far the child of a judger is: src/child.c:33-64, 67-73, 135, 173. *)
Inductive stage : Type := New | Limited | Dropped | Prog.

(** Who waits for a process: the judger that forked it (src/runner.c:85), another
    process, or init, which takes over orphans. *)
Inductive parent : Type := Judge | Proc (p : nat) | Init.

Record process : Type := mkProcess {
  r_conf : config;          (* the configuration its judger was called with *)
  r_stage : stage;
  r_user : Z;               (* real user id; a judger is root, src/runner.c:37 *)
  r_limit : option Z;       (* RLIMIT_NPROC; None: no limit *)
  r_flag : bool;            (* PF_NPROC_EXCEEDED: setuid found too many processes *)
  r_parent : parent;
  r_end : option Z;         (* wait status of an ended process nobody waited for yet *)
  r_utime : Z;              (* user time of its own *)
  r_cutime : Z;             (* user time of children it waited for *)
  r_mem : Z;                (* resident now, KiB *)
  r_peak : Z;               (* most that was resident *)
  r_cpeak : Z               (* the same of children it waited for *)
}.

(** Index: process number; None: ended and waited for. *)
Definition machine : Type := list (option process).

Definition get (w : machine) (p : nat) : option process :=
  match nth_error w p with Some (Some r) => Some r | _ => None end.
Fixpoint put (w : machine) (p : nat) (r : option process) : machine :=
  match w, p with
  | [], _ => []
  | _ :: w, O => r :: w
  | a :: w, S p => a :: put w p r
  end.

(** kernel/ucount.c: the processes of a real user; ended ones count until waited for. *)
Definition of_user (u : Z) (r : option process) : bool :=
  match r with Some r => r_user r =? u | None => false end.
Definition count (u : Z) (w : machine) : Z := Z.of_nat (List.length (filter (of_user u) w)).
Definition above (k : Z) (limit : option Z) : bool :=
  match limit with Some n => n <? k | None => false end.

Definition alive (r : process) : bool := match r_end r with None => true | Some _ => false end.
Definition at_stage (s : stage) (r : process) : bool :=
  alive r && match r_stage r, s with
             | New, New | Limited, Limited | Dropped, Dropped | Prog, Prog => true
             | _, _ => false
             end.

Inductive event : Type :=
| Starts (x : nat) (c : config) (m : Z)
    (* a judger that has m KiB resident forks: src/runner.c:56 *)
| Limits (p : nat)                   (* src/child.c:67-73 *)
| Drops (p : nat) (flagged : bool)   (* src/child.c:135 *)
| Execs (p : nat)                    (* src/child.c:173, execve succeeds *)
| Refused (p : nat) (status : Z)     (* src/child.c:173-174, execve fails with EAGAIN *)
| Forks (p q : nat) (call : string)   (* the program p makes a process q by the system call *)
| Lowers (p : nat) (n : Z)           (* p gives itself a lower process limit *)
| Runs (p : nat) (t : Z)             (* p computes for t microseconds *)
| Holds (p : nat) (m : Z)            (* p now has m KiB resident *)
| Ends (p : nat) (status : Z)        (* p exits or is killed *)
| Waits (p q : nat)                  (* p waits for its child q *)
| Vanishes (q : nat)                 (* q's parent ignores SIGCHLD: nobody has to wait *)
| InitReaps (q : nat)                (* q was an orphan *)
| JudgeReaps (x : nat).              (* wait4 at src/runner.c:85 returns *)

Definition guard (b : bool) (w : machine) : option machine := if b then Some w else None.

(** The child right after src/runner.c:56: root, no limit of its own, as much memory as the judger. *)
Definition forked_by_judger (c : config) (m : Z) : process :=
  mkProcess c New 0 None false Judge None 0 0 m m 0.
(** src/child.c:67-73 *)
Definition limited (r : process) : process :=
  let n := max_process_number (r_conf r) in
  mkProcess (r_conf r) Limited (r_user r) (if n =? UNLIMITED then r_limit r else Some n) (r_flag r)
    (r_parent r) (r_end r) (r_utime r) (r_cutime r) (r_mem r) (r_peak r) (r_cpeak r).
(** src/child.c:135: uid is unsigned, so that -1 is 4294967295. *)
Definition keeps_user (u : Z) : bool := negb (Child.id_given u).
Definition dropped (flagged : bool) (r : process) : process :=
  let u := uid (r_conf r) in
  mkProcess (r_conf r) Dropped (if keeps_user u then r_user r else u) (r_limit r) flagged
    (r_parent r) (r_end r) (r_utime r) (r_cutime r) (r_mem r) (r_peak r) (r_cpeak r).
(** src/child.c:173 *)
Definition executed (r : process) : process :=
  mkProcess (r_conf r) Prog (r_user r) (r_limit r) false
    (r_parent r) (r_end r) (r_utime r) (r_cutime r) (r_mem r) (r_peak r) (r_cpeak r).
(** fork(2) in the program: user and limit are inherited, times start at 0, the pages
    are those of the parent. *)
Definition copy_of (p : nat) (r : process) : process :=
  mkProcess (r_conf r) Prog (r_user r) (r_limit r) false (Proc p) None 0 0 (r_mem r) (r_mem r) 0.
(** setrlimit(2), getrusage(2) of the program: nothing in src/ is involved. *)
Definition lowered (n : Z) (r : process) : process :=
  mkProcess (r_conf r) (r_stage r) (r_user r) (Some n) (r_flag r)
    (r_parent r) (r_end r) (r_utime r) (r_cutime r) (r_mem r) (r_peak r) (r_cpeak r).
Definition ran (t : Z) (r : process) : process :=
  mkProcess (r_conf r) (r_stage r) (r_user r) (r_limit r) (r_flag r)
    (r_parent r) (r_end r) (r_utime r + t) (r_cutime r) (r_mem r) (r_peak r) (r_cpeak r).
Definition holding (m : Z) (r : process) : process :=
  mkProcess (r_conf r) (r_stage r) (r_user r) (r_limit r) (r_flag r)
    (r_parent r) (r_end r) (r_utime r) (r_cutime r) m (Z.max (r_peak r) m) (r_cpeak r).
(** The memory of an ended process is free, its record stays. *)
Definition ended (status : Z) (r : process) : process :=
  mkProcess (r_conf r) (r_stage r) (r_user r) (r_limit r) (r_flag r)
    (r_parent r) (Some status) (r_utime r) (r_cutime r) 0 (r_peak r) (r_cpeak r).
(** kernel/exit.c: init becomes the parent of the children of an ended process. *)
Definition adopted (p : nat) (o : option process) : option process :=
  match o with
  | Some r =>
      match r_parent r with
      | Proc p' => if Nat.eqb p' p then
          Some (mkProcess (r_conf r) (r_stage r) (r_user r) (r_limit r) (r_flag r)
                  Init (r_end r) (r_utime r) (r_cutime r) (r_mem r) (r_peak r) (r_cpeak r))
          else o
      | _ => o
      end
  | None => None
  end.
(** kernel/exit.c, wait_task_zombie: what the child used and what it was handed on. *)
Definition waited (q r : process) : process :=
  mkProcess (r_conf r) (r_stage r) (r_user r) (r_limit r) (r_flag r) (r_parent r) (r_end r)
    (r_utime r) (r_cutime r + (r_utime q + r_cutime q))
    (r_mem r) (r_peak r) (Z.max (r_cpeak r) (Z.max (r_peak q) (r_cpeak q))).

(** kernel/sys.c, set_user: too many processes of the new user are noted, not refused.
    The count is taken before or after the process itself is counted, depending on the
    version; root (user 0) is never noted. *)
Definition note_allowed (flagged : bool) (u k : Z) (limit : option Z) : bool :=
  if flagged then negb (u =? 0) && above k limit
  else (u =? 0) || negb (above (k - 1) limit).
(** fs/exec.c: execve fails if setuid noted too many processes and there are too many now. *)
Definition exec_refused (r : process) (w : machine) : bool :=
  r_flag r && above (count (r_user r) w) (r_limit r).
(** kernel/fork.c: fork fails if there would be too many; root may always. *)
Definition fork_allowed (r : process) (w : machine) : bool :=
  (r_user r =? 0) || negb (above (count (r_user r) w + 1) (r_limit r)).
(** The system calls that make processes. *)
Definition fork_calls : list string := ["fork"; "vfork"; "clone"; "clone3"]%string.
(** src/child.c:140-171, src/rules/*.c: whether the filter lets such a call through.  (No
    rule looks at its arguments, so they are left out, as are clones that make threads.) *)
Definition let_through (c : config) (call : string) : bool :=
  match Seccomp.select_filter (fun _ => true) true 0 (seccomp_rule_name c) with
  | None => false
  | Some None => true
  | Some (Some f) =>
      match Seccomp.filter_action f (Seccomp.mkSys true call (fun _ => 0)) with
      | Seccomp.ActAllow => true
      | _ => false
      end
  end.
Definition fork_call (c : config) (call : string) : bool :=
  existsb (String.eqb call) fork_calls && let_through c call.
(** src/child.c:10-27, CHILD_ERROR_EXIT: without a seccomp rule the child dies of
    SIGUSR1; with one, raise may be what kills it (C14). *)
Definition error_exit_status (c : config) (status : Z) : bool :=
  match seccomp_rule_name c with None => status =? SIGUSR1 | Some _ => true end.
Definition may_lower (n : Z) (limit : option Z) : bool :=
  (0 <=? n) && match limit with Some k => n <=? k | None => true end.

Definition step (w : machine) (e : event) : option machine :=
  match e with
  | Starts x c m =>
      guard (Nat.eqb x (List.length w) && negb (config_invalid c) && (0 <=? m))
        (w ++ [Some (forked_by_judger c m)])
  | Limits p =>
      match get w p with
      | Some r => guard (at_stage New r) (put w p (Some (limited r)))
      | None => None
      end
  | Drops p flagged =>
      match get w p with
      | Some r =>
          let r' := dropped flagged r in
          let w' := put w p (Some r') in
          guard (at_stage Limited r &&
                 if keeps_user (uid (r_conf r)) then negb flagged
                 else note_allowed flagged (r_user r') (count (r_user r') w') (r_limit r')) w'
      | None => None
      end
  | Execs p =>
      match get w p with
      | Some r => guard (at_stage Dropped r && negb (exec_refused r w)) (put w p (Some (executed r)))
      | None => None
      end
  | Refused p status =>
      match get w p with
      | Some r => guard (at_stage Dropped r && exec_refused r w && error_exit_status (r_conf r) status)
                    (put w p (Some (ended status r)))
      | None => None
      end
  | Forks p q call =>
      match get w p with
      | Some r => guard (at_stage Prog r && Nat.eqb q (List.length w) && fork_call (r_conf r) call && fork_allowed r w)
                    (w ++ [Some (copy_of p r)])
      | None => None
      end
  | Lowers p n =>
      match get w p with
      | Some r => guard (at_stage Prog r && may_lower n (r_limit r)) (put w p (Some (lowered n r)))
      | None => None
      end
  | Runs p t =>
      match get w p with
      | Some r => guard (alive r && (0 <=? t)) (put w p (Some (ran t r)))
      | None => None
      end
  | Holds p m =>
      match get w p with
      | Some r => guard (alive r && (0 <=? m)) (put w p (Some (holding m r)))
      | None => None
      end
  | Ends p status =>
      match get w p with
      | Some r => guard (alive r) (put (map (adopted p) w) p (Some (ended status r)))
      | None => None
      end
  | Waits p q =>
      match get w p, get w q with
      | Some r, Some s =>
          match r_parent s with
          | Proc p' => guard (alive r && negb (alive s) && Nat.eqb p' p)
                         (put (put w q None) p (Some (waited s r)))
          | _ => None
          end
      | _, _ => None
      end
  | Vanishes q =>
      match get w q with
      | Some s => match r_parent s with
                  | Proc _ => guard (negb (alive s)) (put w q None)
                  | _ => None
                  end
      | None => None
      end
  | InitReaps q =>
      match get w q with
      | Some s => match r_parent s with
                  | Init => guard (negb (alive s)) (put w q None)
                  | _ => None
                  end
      | None => None
      end
  | JudgeReaps x =>
      match get w x with
      | Some s => match r_parent s with
                  | Judge => guard (negb (alive s)) (put w x None)
                  | _ => None
                  end
      | None => None
      end
  end.

(** A history of the machine, from the moment it has no judged program. *)
Fixpoint history (w : machine) (evs : list event) : option machine :=
  match evs with
  | [] => Some w
  | e :: evs => match step w e with Some w' => history w' evs | None => None end
  end.

(** What wait4 at src/runner.c:85 stores for an ended process: its own use and what it
    was handed on (RUSAGE_BOTH). *)
Definition usage (r : process) : rusage :=
  let t := r_utime r + r_cutime r in
  mkRu (mkTv (t / 1000000) (t mod 1000000)) (mkTv 0 0) (Z.max (r_peak r) (r_cpeak r)).

(** The result the judger computes when it waits for x: src/runner.c:85-139. *)
Definition reported (w : machine) (x : nat) (start end_ : timeval) : option (cres result) :=
  match get w x with
  | Some r => match r_parent r, r_end r with
              | Judge, Some status => Some (judge (r_conf r) status (usage r) start end_)
              | _, _ => None
              end
  | None => None
  end.
