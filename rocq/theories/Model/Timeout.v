(** src/runner.c:52-98 and src/killer.c as an interleaving transition system:
    the thread that executes run() ("parent"), the timeout thread ("killer"),
    the judged process, the kernel and the clocks.  An execution is a list of
    operations; every order of them that the parts allow is an execution.

    Simplifications: run() is entered with uid 0 and an accepted configuration
    (the checks before line 52 are in Model/Runner.v); the judged process is
    its observable life cycle only; ticks are whole microseconds; the process
    of the judger itself lives on after run() returns (as with the Lua
    binding). *)
From Coq Require Import ZArith Bool List.
From Verif.Base Require Import CInt CStr.
From Verif.Model Require Import Config Runner.
From Verif.Spec Require Import Verdict.
Import ListNotations.
Open Scope Z_scope.

(** The thread executing run(): the statement it executes next.  [start] is
    the wall clock value stored at line 54. *)
Inductive parent : Type :=
| PStart                                       (* line 54, gettimeofday *)
| PFork (start : Z)                            (* line 56, fork *)
| PCreate (start : Z)                          (* lines 69-73, pthread_create *)
| PInBlock (start : Z)                         (* line 77: the thread exists, killer_args is alive *)
| PKillCreate (start : Z)                      (* line 74 *)
| PWait (start : Z)                            (* line 85 *)
| PKillWait (start : Z)                        (* line 86 *)
| PEnd (start status : Z) (ru : rusage)        (* line 90, gettimeofday *)
| PCancel (start end_ status : Z) (ru : rusage) (* lines 91-98 *)
| PReturned (r : cres result).                 (* after line 143 *)

(** The timeout thread (src/killer.c:14-33). *)
Inductive killer : Type :=
| KNone                        (* not created *)
| KStart                       (* line 16 *)
| KGotPid (pid : Z)            (* line 17 *)
| KGot (pid timeout : Z)       (* line 19, pthread_detach *)
| KDetached (pid timeout : Z)  (* line 25, entering sleep *)
| KSleep (pid until : Z)       (* in sleep; [until] on the monotonic clock *)
| KFailed (pid : Z)            (* lines 20, 26 *)
| KWoke (pid : Z)              (* line 29 *)
| KReturn                      (* the kill is done, return NULL *)
| KDone                        (* the thread has ended *)
| KCancelled.                  (* ended by pthread_cancel *)

(** The judged process. *)
Inductive proc : Type :=
| NotForked
| Running
| StoppedP (sig : Z) (reported : bool)
| Zombie (o : outcome)
| Reaped.

(** Whom a SIGKILL reached. *)
Inductive target : Type :=
| TJudged              (* the judged process, not yet reaped *)
| TNobody              (* no process has the pid any more *)
| TStranger            (* another process that was given the pid *)
| TPid (pid : Z).      (* a pid that is not the one fork returned *)

Inductive who : Type := ByParent | ByKiller.
Record kill_ev : Type := mkKill { kl_who : who; kl_time : Z; kl_target : target }.

(** Undefined behaviour; the execution continues as if the memory or thread id
    were still what it was. *)
Inductive ub : Type :=
| UbStaleArgs      (* killer_args read after its block was left *)
| UbStaleThread    (* pthread_cancel of a detached thread that has ended *)
| UbOverflow.      (* timeout + 1000 *)

Record tstate : Type := mkT {
  mono : Z;              (* monotonic clock, microseconds *)
  wall : Z;              (* gettimeofday clock, microseconds *)
  ppc : parent;
  kpc : killer;
  cancel_req : bool;     (* pthread_cancel was called *)
  detached : bool;
  proc_st : proc;
  kill_pending : bool;   (* SIGKILL sent to the judged process, not yet delivered *)
  recycled : bool;       (* its pid belongs to a new process *)
  kids : nat;            (* living processes created by the program *)
  ubs : list ub;
  kills : list kill_ev;
  t_fork : Z             (* monotonic time of the fork, for statements only *)
}.

(** Parameters of an execution: the configuration, the pid fork returns, and
    whether the judger ignores SIGCHLD, in which case the kernel reaps the
    child by itself. *)
Record tparams : Type := mkP { p_config : config; p_pid : Z; p_autoreap : bool }.

Inductive op : Type :=
| Tick (d : Z)                 (* d microseconds pass *)
| SetClock (d : Z)             (* somebody adjusts the wall clock by d *)
| Parent                       (* the parent's next statement succeeds *)
| ParentFail                   (* its call fails *)
| Wait (ru : rusage)           (* wait4 returns with this usage *)
| Killer                       (* the timeout thread's next statement *)
| KillerFail                   (* pthread_detach fails / sleep is interrupted *)
| KillerJunk (z : Z)           (* reads z from the dead killer_args *)
| KillerCancel                 (* the cancellation takes effect *)
| Exit (code : Z)              (* the program exits *)
| Die (sig : Z) (core : bool)  (* it is terminated by a signal of another origin *)
| Deliver                      (* the pending SIGKILL takes effect *)
| StopP (sig : Z)              (* it is stopped by a signal *)
| Cont                         (* it is continued *)
| Spawn                        (* the program creates a process *)
| KidExit
| Recycle.                     (* the kernel gives the pid to a new process *)

Definition set_ppc (s : tstate) (p : parent) : tstate :=
  mkT (mono s) (wall s) p (kpc s) (cancel_req s) (detached s) (proc_st s) (kill_pending s)
      (recycled s) (kids s) (ubs s) (kills s) (t_fork s).
Definition set_kpc (s : tstate) (k : killer) : tstate :=
  mkT (mono s) (wall s) (ppc s) k (cancel_req s) (detached s) (proc_st s) (kill_pending s)
      (recycled s) (kids s) (ubs s) (kills s) (t_fork s).
Definition set_proc (s : tstate) (p : proc) : tstate :=
  mkT (mono s) (wall s) (ppc s) (kpc s) (cancel_req s) (detached s) p (kill_pending s)
      (recycled s) (kids s) (ubs s) (kills s) (t_fork s).
Definition set_cancel (s : tstate) : tstate :=
  mkT (mono s) (wall s) (ppc s) (kpc s) true (detached s) (proc_st s) (kill_pending s)
      (recycled s) (kids s) (ubs s) (kills s) (t_fork s).
Definition set_detached (s : tstate) : tstate :=
  mkT (mono s) (wall s) (ppc s) (kpc s) (cancel_req s) true (proc_st s) (kill_pending s)
      (recycled s) (kids s) (ubs s) (kills s) (t_fork s).
Definition set_kids (s : tstate) (n : nat) : tstate :=
  mkT (mono s) (wall s) (ppc s) (kpc s) (cancel_req s) (detached s) (proc_st s) (kill_pending s)
      (recycled s) n (ubs s) (kills s) (t_fork s).
Definition set_recycled (s : tstate) : tstate :=
  mkT (mono s) (wall s) (ppc s) (kpc s) (cancel_req s) (detached s) (proc_st s) (kill_pending s)
      true (kids s) (ubs s) (kills s) (t_fork s).
Definition add_ub (s : tstate) (u : ub) : tstate :=
  mkT (mono s) (wall s) (ppc s) (kpc s) (cancel_req s) (detached s) (proc_st s) (kill_pending s)
      (recycled s) (kids s) (ubs s ++ [u]) (kills s) (t_fork s).
Definition set_clocks (s : tstate) (m w : Z) : tstate :=
  mkT m w (ppc s) (kpc s) (cancel_req s) (detached s) (proc_st s) (kill_pending s)
      (recycled s) (kids s) (ubs s) (kills s) (t_fork s).
Definition add_kill (s : tstate) (w : who) (t : target) (pend : bool) : tstate :=
  mkT (mono s) (wall s) (ppc s) (kpc s) (cancel_req s) (detached s) (proc_st s) pend
      (recycled s) (kids s) (ubs s) (kills s ++ [mkKill w (mono s) t]) (t_fork s).
(** fork succeeds (line 56): the process runs from now on. *)
Definition forked (s : tstate) : tstate :=
  mkT (mono s) (wall s) (ppc s) (kpc s) (cancel_req s) (detached s) Running (kill_pending s)
      (recycled s) (kids s) (ubs s) (kills s) (mono s).

Section Timeout.
Variable P : tparams.

(** src/killer.c:9-11, kill(pid, SIGKILL): a zombie keeps its pid. *)
Definition do_kill (s : tstate) (w : who) (pid : Z) : tstate :=
  if pid =? p_pid P then
    match proc_st s with
    | Running | StoppedP _ _ => add_kill s w TJudged true
    | Zombie _ => add_kill s w TJudged (kill_pending s)
    | NotForked | Reaped => add_kill s w (if recycled s then TStranger else TNobody) (kill_pending s)
    end
  else add_kill s w (TPid pid) (kill_pending s).

(** A time of the wall clock as a struct timeval. *)
Definition tv (us : Z) : timeval := mkTv (us / 1000000) (us mod 1000000).

Definition limited_time : bool := negb (max_real_time (p_config P) =? UNLIMITED).

(** The block of killer_args (lines 68-77) has been left. *)
Definition args_dead (s : tstate) : bool :=
  match ppc s with PStart | PFork _ | PCreate _ | PInBlock _ => false | _ => true end.

Definition error_result (code : Z) : cres result := Val (mkResult 0 0 0 0 0 code SUCCESS).

(** pthread_cancel (line 95).  A thread that is blocked in sleep does not return
    from it any more; if the sleep has ended the request may come too late (see
    [killer_step] and [killer_cancel]).  Using the id of a detached thread that
    has ended is undefined. *)
Definition do_cancel (s : tstate) : tstate :=
  set_cancel
    match kpc s with
    | KDone => if detached s then add_ub s UbStaleThread else s
    | KSleep _ until => if mono s <? until then set_kpc s KCancelled else s
    | _ => s
    end.

(** One statement of run().  wait4 is the operation [Wait]. *)
Definition parent_step (s : tstate) : option tstate :=
  match ppc s with
  | PStart => Some (set_ppc s (PFork (wall s)))
  | PFork w => Some (set_ppc (forked s) (if limited_time then PCreate w else PWait w))
  | PCreate w => Some (set_kpc (set_ppc s (PInBlock w)) KStart)
  | PInBlock w => Some (set_ppc s (PWait w))
  | PKillCreate w => Some (set_ppc (do_kill s ByParent (p_pid P)) (PReturned (error_result PTHREAD_FAILED)))
  | PWait _ => None
  | PKillWait w => Some (set_ppc (do_kill s ByParent (p_pid P)) (PReturned (error_result WAIT_FAILED)))
  | PEnd w st ru => Some (set_ppc s (PCancel w (wall s) st ru))
  | PCancel w e st ru =>
      let r := PReturned (judge (p_config P) st ru (tv w) (tv e)) in
      Some (set_ppc (if limited_time then do_cancel s else s) r)
  | PReturned _ => None
  end.

Definition parent_fail (s : tstate) : option tstate :=
  match ppc s with
  | PFork _ => Some (set_ppc s (PReturned (error_result FORK_FAILED)))
  | PCreate w => Some (set_ppc s (PKillCreate w))
  | PWait w => Some (set_ppc s (PKillWait w))
  | _ => None
  end.

(** wait4(child_pid, &status, WSTOPPED, &ru): a terminated child is reaped, a
    stopped one is reported once. *)
Definition parent_wait (s : tstate) (ru : rusage) : option tstate :=
  match ppc s, proc_st s with
  | PWait w, Zombie o => Some (set_proc (set_ppc s (PEnd w (wait_status o) ru)) Reaped)
  | PWait w, StoppedP sig false =>
      Some (set_proc (set_ppc s (PEnd w (wait_status (Stopped sig)) ru)) (StoppedP sig true))
  | _, _ => None
  end.

(** src/killer.c:25: (unsigned int)((timeout + 1000) / 1000) seconds. *)
Definition sleep_seconds (timeout : Z) : cres Z :=
  cbind (int_op (timeout + 1000)) (fun x => Val (cast_u32 (cdiv x 1000))).

(** Reading a member of killer_args. *)
Definition note_stale (s : tstate) : tstate :=
  if args_dead s then add_ub s UbStaleArgs else s.

(** One statement of the timeout thread.  sleep is a cancellation point, kill
    is not. *)
Definition killer_step (s : tstate) : option tstate :=
  match kpc s with
  | KStart => Some (set_kpc (note_stale s) (KGotPid (p_pid P)))
  | KGotPid p => Some (set_kpc (note_stale s) (KGot p (max_real_time (p_config P))))
  | KGot p t => Some (set_kpc (set_detached s) (KDetached p t))
  | KDetached p t =>
      if cancel_req s then Some (set_kpc s KCancelled)
      else match sleep_seconds t with
           | UB => Some (set_kpc (add_ub s UbOverflow) KDone)
           | Val sec => Some (set_kpc s (KSleep p (mono s + 1000000 * sec)))
           end
  | KSleep p until => if until <=? mono s then Some (set_kpc s (KWoke p)) else None
  | KFailed p => Some (set_kpc (do_kill s ByKiller p) KReturn)
  | KWoke p => Some (set_kpc (do_kill s ByKiller p) KReturn)
  | KReturn => Some (set_kpc s KDone)
  | KNone | KDone | KCancelled => None
  end.

(** pthread_detach fails (line 19), sleep returns early (line 25). *)
Definition killer_fail (s : tstate) : option tstate :=
  match kpc s with
  | KGot p t => Some (set_kpc s (KFailed p))
  | KSleep p _ => Some (set_kpc s (KFailed p))
  | _ => None
  end.

(** The dead structure was overwritten by something else. *)
Definition killer_junk (s : tstate) (z : Z) : option tstate :=
  if args_dead s then
    match kpc s with
    | KStart => Some (set_kpc (note_stale s) (KGotPid z))
    | KGotPid p => Some (set_kpc (note_stale s) (KGot p z))
    | _ => None
    end
  else None.

(** The request arrives between the end of the sleep and its return. *)
Definition killer_cancel (s : tstate) : option tstate :=
  match kpc s with
  | KSleep _ _ => if cancel_req s then Some (set_kpc s KCancelled) else None
  | _ => None
  end.

Definition alive (s : tstate) : bool :=
  match proc_st s with Running | StoppedP _ _ => true | _ => false end.

(** The process terminates with outcome [o]. *)
Definition terminate (s : tstate) (o : outcome) : tstate :=
  set_proc s (if p_autoreap P then Reaped else Zombie o).

Definition step (s : tstate) (o : op) : option tstate :=
  match o with
  | Tick d =>
      (* time does not jump over the end of the sleep *)
      let jump := match kpc s with
                  | KSleep _ until => (mono s <? until) && (until <? mono s + d)
                  | _ => false
                  end in
      if (0 <? d) && negb jump then Some (set_clocks s (mono s + d) (wall s + d)) else None
  | SetClock d => Some (set_clocks s (mono s) (wall s + d))
  | Parent => parent_step s
  | ParentFail => parent_fail s
  | Wait ru => parent_wait s ru
  | Killer => killer_step s
  | KillerFail => killer_fail s
  | KillerJunk z => killer_junk s z
  | KillerCancel => killer_cancel s
  | Exit n =>
      match proc_st s with
      | Running => if (0 <=? n) && (n <=? 255) then Some (terminate s (Exited n)) else None
      | _ => None
      end
  | Die sig core =>
      if alive s && (1 <=? sig) && (sig <=? 64) then Some (terminate s (Killed sig core)) else None
  | Deliver =>
      if alive s && kill_pending s then Some (terminate s (Killed SIGKILL false)) else None
  | StopP sig =>
      match proc_st s with
      | Running =>
          if negb (kill_pending s) && (1 <=? sig) && (sig <=? 64) then Some (set_proc s (StoppedP sig false))
          else None
      | _ => None
      end
  | Cont => match proc_st s with StoppedP _ _ => Some (set_proc s Running) | _ => None end
  | Spawn => match proc_st s with Running => Some (set_kids s (S (kids s))) | _ => None end
  | KidExit => match kids s with O => None | S n => Some (set_kids s n) end
  | Recycle => match proc_st s with Reaped => Some (set_recycled s) | _ => None end
  end.

Fixpoint exec (s : tstate) (ops : list op) : option tstate :=
  match ops with
  | [] => Some s
  | o :: rest => match step s o with Some s' => exec s' rest | None => None end
  end.
End Timeout.

(** run() has just passed its checks at monotonic time [m], wall clock [w]. *)
Definition init (m w : Z) : tstate :=
  mkT m w PStart KNone false false NotForked false false 0 [] [] 0.
