(** Who holds the pipe the caller of the judger reads: bindings/Python/_judger/__init__.py:80-81
    (communicate reads both pipes to their end) and bindings/NodeJS/judger.cc:183-188 (popen, fgets,
    pclose).  A read sees the end of a pipe when no process holds a descriptor of its writing end. *)
From Coq Require Import ZArith Bool List String.
From Verif.Base Require Import CInt CStr.
From Verif.Model Require Import Config Runner Child Timeout Judger.
From Verif.Model Require Processes.
Import ListNotations.
Open Scope list_scope.

(** Descriptor tables of the living processes of a program. *)
Definition fds : Type := list (option ofile).
Definition tree : Type := nat -> option fds.
Definition set (t : tree) (p : nat) (x : option fds) : tree := fun q => if Nat.eqb q p then x else t q.
Definition only (x : fds) : tree := fun q => if Nat.eqb q 0 then Some x else None.

(** What the processes do with descriptors after src/child.c:173.  (Passing them through sockets is not modelled.) *)
Inductive tevent : Type :=
| Opens (p n : nat) (o : ofile)
| Dups (p old new : nat)
| Closes (p n : nat)
| ForksBy (p q : nat) (call : string)
| ExecsKeeping (p : nat) (x : fds)          (* close-on-exec descriptors go *)
| Ends (p : nat).

(** The filter of the program, src/child.c:140-171, decides about the calls that make processes. *)
Inductive tstep (c : config) (t : tree) : tevent -> tree -> Prop :=
| t_opens p x n o : t p = Some x -> tstep c t (Opens p n o) (set t p (Some (fd_set x n (Some o))))
| t_dups p x old new o : t p = Some x -> fd_get x old = Some o -> tstep c t (Dups p old new) (set t p (Some (fd_set x new (Some o))))
| t_closes p x n : t p = Some x -> tstep c t (Closes p n) (set t p (Some (fd_set x n None)))
| t_forks p x q call : t p = Some x -> t q = None -> Processes.fork_call c call = true -> tstep c t (ForksBy p q call) (set t q (Some x))
| t_execs p x y : t p = Some x -> (forall n o, fd_get y n = Some o -> fd_get x n = Some o) -> tstep c t (ExecsKeeping p y) (set t p (Some y))
| t_ends p x : t p = Some x -> tstep c t (Ends p) (set t p None).

Inductive truns (c : config) (t : tree) : list tevent -> tree -> Prop :=
| truns_nil : truns c t [] t
| truns_cons e t1 es t2 : tstep c t e t1 -> truns c t1 es t2 -> truns c t (e :: es) t2.

(** The processes that are left when run() (src/runner.c:29-143) has returned in the state [s], and what they
    did up to some later moment: the process that is still being set up (with any descriptors), or the program
    and the processes it made. *)
Inductive left_over (W : world) (c : config) (s : gstate) : list tevent -> tree -> Prop :=
| left_none : g_program s = false -> alive (g_t s) = false -> left_over W c s [] (fun _ => None)
| left_set_up x : g_program s = false -> alive (g_t s) = true -> left_over W c s [] (only x)
| left_program path a v k es t :
    g_program s = true -> set_up W c = CExec path a v k -> truns c (only (k_fds k)) es t ->
    (alive (g_t s) = false -> In (Ends 0) es /\ forall q call, ~ In (ForksBy q 0 call) es) -> left_over W c s es t.
