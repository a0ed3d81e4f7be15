(** Time and memory of judged programs while they run, on top of Model/Program.v: how the kernel keeps the limits that
    src/child.c:28-82 has set.

    The kernel's part follows getrlimit(2), mmap(2), brk(2), execve(2) and getrusage(2): at every tick of the clock a
    process whose user and system time together have reached the hard limit RLIMIT_CPU is ended by SIGKILL, otherwise,
    if they have reached the soft limit, it gets SIGXCPU and the soft limit is raised by one second; the address space
    does not grow beyond the soft limit RLIMIT_AS; no more memory is resident than the address space has.
    Simplifications: time passes in slices of at most one tick, whatever the number of threads; page tables and other
    memory of the kernel are not counted (as the kernel does not). *)
From Coq Require Import ZArith Bool List String.
From Verif.Base Require Import CInt CStr.
From Verif.Model Require Import Config Runner Seccomp Child Program.
Import ListNotations.
Open Scope list_scope.
Open Scope Z_scope.

(** User and system time (microseconds), address space, resident memory and its maximum (bytes). *)
Record use : Type := mkUse { u_user : Z; u_sys : Z; u_space : Z; u_resident : Z; u_peak : Z }.
Definition u_time (u : use) : Z := u_user u + u_sys u.
Definition meter : Type := nat -> use.
Definition set_use (m : meter) (p : nat) (u : use) : meter := fun q => if Nat.eqb q p then u else m q.
Definition spend (u : use) (user sys : Z) : use :=
  mkUse (u_user u + user) (u_sys u + sys) (u_space u) (u_resident u) (u_peak u).
Definition occupy (u : use) (space resident : Z) : use :=
  mkUse (u_user u) (u_sys u) space resident (Z.max (u_peak u) resident).

Definition RLIM_INFINITY : Z := 18446744073709551615.
Definition SIGXCPU : Z := 24.
(** RLIMIT_CPU is in seconds. *)
Definition reached (limit time : Z) : bool := negb (limit =? RLIM_INFINITY) && (1000000 * limit <=? time).
Definition within (limit space : Z) : Prop := limit = RLIM_INFINITY \/ space <= limit.

Section Meter.
(** The length of a tick in microseconds. *)
Variable tick : Z.
(** Does SIGXCPU end the process (it is neither ignored nor caught)? *)
Variable xcpu : nat -> bool.

(** At a tick, with [time] spent. *)
Definition at_tick (p : nat) (P : proc) (time : Z) : proc + ending :=
  let (soft, hard) := p_rlim P RCpu in
  if reached hard time then inr (Signaled SIGKILL)
  else if reached soft time then (if xcpu p then inr (Signaled SIGXCPU) else inl (with_rlim P RCpu (soft + 1, hard)))
  else inl P.

(** The calls of the modelled ones that change the address space. *)
Definition space_calls : list string := ["mmap"; "munmap"; "brk"]%string.
(** The address space after a call that passes the filter. *)
Definition new_space (P : proc) (u : use) (sc : syscall) (space : Z) : Prop :=
  space = u_space u \/
  (In (sc_name sc) space_calls /\ (space <= u_space u \/ within (fst (p_rlim P RAs)) space)) \/
  (sc_name sc = "execve"%string /\ within (fst (p_rlim P RAs)) space) \/
  ~ In (sc_name sc) modelled.

Inductive mevent : Type :=
| MCall (p : nat) (sc : syscall)
| MRun (p : nat) (user sys : Z)      (* p runs for a while *)
| MFault (p : nat)                   (* p touches memory, or its stack grows *)
| MHit (p : nat) (sig : Z).          (* a signal from outside or for a fault ends p *)

Inductive mstep (w : world) (m : meter) : mevent -> world -> meter -> Prop :=
| m_call p P sc w' space resident :
    w p = Some (inl P) -> filters_action (p_filters P) sc = ActAllow -> step w (Calls p sc) w' ->
    new_space P (m p) sc space -> 0 <= resident <= space ->
    mstep w m (MCall p sc) w' (set_use m p (occupy (m p) space resident))
| m_denied p P sc w' :
    w p = Some (inl P) -> filters_action (p_filters P) sc <> ActAllow -> step w (Calls p sc) w' ->
    mstep w m (MCall p sc) w' m
| m_run p P user sys :
    w p = Some (inl P) -> 0 <= user -> 0 <= sys -> user + sys <= tick ->
    mstep w m (MRun p user sys) (put w p (at_tick p P (u_time (m p) + user + sys))) (set_use m p (spend (m p) user sys))
| m_fault p P space resident :
    w p = Some (inl P) -> space = u_space (m p) \/ (u_space (m p) <= space /\ within (fst (p_rlim P RAs)) space) ->
    0 <= resident <= space ->
    mstep w m (MFault p) w (set_use m p (occupy (m p) space resident))
| m_hit p sig w' : step w (Hit p sig) w' -> mstep w m (MHit p sig) w' m.

Inductive mruns (w : world) (m : meter) : list mevent -> world -> meter -> Prop :=
| mruns_nil : mruns w m [] w m
| mruns_cons e w1 m1 evs w2 m2 : mstep w m e w1 m1 -> mruns w1 m1 evs w2 m2 -> mruns w m (e :: evs) w2 m2.
End Meter.
