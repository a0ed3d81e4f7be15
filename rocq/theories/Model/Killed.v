(** The judger is killed (by the system, an operator, its caller) at any moment of its work:
    src/main.c:13-191 and src/runner.c:29-143 stop where they are, and so does the timeout thread,
    src/killer.c:14-33.  The process it created is not told: src/child.c goes on, then the program.
    Nothing in the code asks for a signal at the death of the parent. *)
From Coq Require Import ZArith Bool List Ascii String.
From Verif.Base Require Import CInt CStr.
From Verif.Model Require Import Config Runner Child Argtable Main Messages.
From Verif.Model Require Import Timeout Judger Python PythonDecode NodeBinding.
Import ListNotations.
Open Scope list_scope.

(** What happens without the judger: neither run() (src/runner.c:29-143) nor timeout_killer
    (src/killer.c:14-33).  That init reaps the process is not modelled, so its pid stays its own. *)
Definition goes_on (g : gop) : bool :=
  match g with
  | Execs | Foreign _ _ => true
  | Sys (Tick _ | SetClock _ | Exit _ | Die _ _ | Deliver | StopP _ | Cont | Spawn | KidExit) => true
  | Sys (Parent | ParentFail | Wait _ | Killer | KillerFail | KillerJunk _ | KillerCancel | Recycle) => false
  end.

(** The threads are gone, also the one of src/killer.c:14-33. *)
Definition orphaned (s : gstate) : gstate := mkG (set_kpc (g_t s) KNone) (g_program s).

(** [later] happens when the judger has been killed in the state [s]. *)
Definition alone (W : world) (c : config) (s : gstate) (later : list gop) : option gstate :=
  if forallb goes_on later then gexec W c (orphaned s) later else None.

Definition afterwards (W : world) (h : history) (later : list gop) : Prop :=
  match h with
  | NothingRun => later = []
  | Ran c _ s => alone W c s later <> None
  end.

(** The judger is killed when [h] has happened and the bytes [p] of its report have left it, then [later]
    happens.  src/main.c:170-187: the report is handed to the system at exit or before, in pieces of any
    size.  (No rule for histories with undefined behaviour.) *)
Inductive killed (W : world) (argv : list str) : history -> list gop -> str -> Prop :=
| killed_early : killed W argv NothingRun [] []
| killed_working c ops s later :
    does (w_posix W) argv (Val (Run c)) -> refusal W c = None ->
    gexec W c (ginit W) ops = Some s -> undefined_in W c s = false ->
    afterwards W (Ran c ops s) later -> killed W argv (Ran c ops s) later []
| killed_reporting h t st p rest later :
    judger W argv h (Prints t st) -> t = p ++ rest -> afterwards W h later -> killed W argv h later p.

(** bindings/Python/_judger/__init__.py:29-85 when the judger it started is killed: the exit status is not
    looked at.  [own] is what else was written to the judger's standard output. *)
Inductive python_killed (W : world) (own err : str) (vars : locals) : history -> list gop -> str -> outcome -> Prop :=
| python_killed_in argv h later p o :
    command vars = Some argv -> killed W argv h later p -> (h = NothingRun -> own = []) ->
    decodes (own ++ p) err o -> python_killed W own err vars h later p o.

(** bindings/NodeJS/judger.cc:107-201, likewise. *)
Inductive node_killed (W : world) (own : str) (obj : string -> jsval) : history -> list gop -> str -> node_out -> Prop :=
| node_killed_in cmd argv h later p o :
    node_command obj = NVal cmd -> shell cmd = Some [argv] -> hd_error argv = Some (lit "/usr/lib/judger/libjudger.so") ->
    killed W argv h later p -> (h = NothingRun -> own = []) ->
    node_decodes (own ++ p) o -> node_killed W own obj h later p o.
