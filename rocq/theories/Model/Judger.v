(** The judger as a whole: src/main.c, src/runner.c, src/killer.c and src/child.c together.
    The parts are those of Model/Main.v, Runner.v, Timeout.v, Child.v and Messages.v; here the
    judged process of Model/Timeout.v first executes child_process (Model/Child.v) and becomes
    the program only if that reaches execve. *)
From Coq Require Import ZArith Bool List.
From Verif.Base Require Import CInt CStr.
From Verif.Model Require Import Config Runner Child Argtable Main Messages.
From Verif.Model Require Import Timeout.
Import ListNotations.
Open Scope Z_scope.

(** Everything that does not depend on the judger. *)
Record world : Type := mkWorld {
  w_posix : bool;              (* POSIXLY_CORRECT is set *)
  w_uid : Z;                   (* getuid() *)
  w_pid : Z;                   (* what fork returns *)
  w_autoreap : bool;           (* SIGCHLD is ignored *)
  w_child : child_env;         (* results of the calls of child_process *)
  w_log : option stream;       (* result of log_open *)
  w_k0 : kstate;               (* kernel state of the new process *)
  w_mono : Z; w_wall : Z       (* the clocks when run() is called *)
}.

Record gstate : Type := mkG { g_t : tstate; g_program : bool (* the process is the program *) }.

Inductive gop : Type :=
| Sys (o : op)                        (* as in Model/Timeout.v *)
| Foreign (sig : Z) (core : bool)     (* another process terminates the judged one by a signal *)
| Execs.                              (* execve succeeds, src/child.c:173 *)

Section Judger.
Variable W : world.
Variable c : config.

(** src/runner.c:60-62: what the new process does. *)
Definition set_up : child_end := child_process (w_child W) (w_log W) c (w_k0 W).
Definition params : tparams := mkP c (w_pid W) (w_autoreap W).

(** Before it is the program the process ends as child_process does, and creates no process.
    (SIGKILL, stop signals and [Foreign] come from outside at any time.) *)
Definition possible (s : gstate) (o : op) : bool :=
  if g_program s then true
  else match o with
       | Exit n => match set_up with CExit m _ => n =? m | CUB => true | _ => false end
       | Die sig _ => match set_up with CKilled m _ => sig =? m | CUB => true | _ => false end
       | Spawn => match set_up with CUB => true | _ => false end
       | _ => true
       end.

Definition gstep (s : gstate) (g : gop) : option gstate :=
  match g with
  | Sys o =>
      if possible s o then option_map (fun t => mkG t (g_program s)) (step params (g_t s) o) else None
  | Foreign sig core => option_map (fun t => mkG t (g_program s)) (step params (g_t s) (Die sig core))
  | Execs =>
      match g_program s, proc_st (g_t s), set_up with
      | false, Running, CExec _ _ _ _ => Some (mkG (g_t s) true)
      | _, _, _ => None
      end
  end.

Fixpoint gexec (s : gstate) (ops : list gop) : option gstate :=
  match ops with
  | [] => Some s
  | o :: rest => match gstep s o with Some s' => gexec s' rest | None => None end
  end.

Definition ginit : gstate := mkG (init (w_mono W) (w_wall W)) false.

(** Undefined behaviour has happened, in a thread or in the new process. *)
Definition undefined_in (s : gstate) : bool :=
  negb (match ubs (g_t s) with [] => true | _ => false end) ||
  (match set_up with CUB => true | _ => false end && negb (match proc_st (g_t s) with NotForked => true | _ => false end)) ||
  match ppc (g_t s) with PReturned UB => true | _ => false end.

(** src/runner.c:37-50: the checks before anything is started. *)
Definition refusal : option Z :=
  if negb (w_uid W =? 0) then Some ROOT_REQUIRED
  else if config_invalid c then Some INVALID_CONFIG
  else None.
End Judger.

(** What the judger itself writes to standard output, and its exit status. *)
Inductive judger_out : Type := Prints (text : str) (status : Z) | Undefined.
(** Whether it got as far as fork, and what happened from there on. *)
Inductive history : Type := NothingRun | Ran (c : config) (ops : list gop) (s : gstate).

(** src/main.c:13-191. *)
Inductive judger (W : world) (argv : list str) : history -> judger_out -> Prop :=
| judger_parse_ub : does (w_posix W) argv UB -> judger W argv NothingRun Undefined
| judger_text a t :
    does (w_posix W) argv (Val a) -> (forall c, a <> Run c) -> printed (fun _ => init_result) a = Val t ->
    judger W argv NothingRun (Prints t (exit_status a))
| judger_text_ub a :
    does (w_posix W) argv (Val a) -> (forall c, a <> Run c) -> printed (fun _ => init_result) a = UB ->
    judger W argv NothingRun Undefined
| judger_refused c code :
    does (w_posix W) argv (Val (Run c)) -> refusal W c = Some code ->
    judger W argv NothingRun (Prints (print_result (mkResult 0 0 0 0 0 code SUCCESS)) (exit_status (Run c)))
| judger_ran c ops s r :
    does (w_posix W) argv (Val (Run c)) -> refusal W c = None ->
    gexec W c (ginit W) ops = Some s -> ppc (g_t s) = PReturned (Val r) -> undefined_in W c s = false ->
    judger W argv (Ran c ops s) (Prints (print_result r) (exit_status (Run c)))
| judger_ran_ub c ops s :
    does (w_posix W) argv (Val (Run c)) -> refusal W c = None ->
    gexec W c (ginit W) ops = Some s -> undefined_in W c s = true ->
    judger W argv (Ran c ops s) Undefined.
