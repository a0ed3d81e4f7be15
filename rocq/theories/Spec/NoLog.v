(** A process that opens its log and writes to it again and again. *)
From Coq Require Import ZArith Bool List Ascii String.
From Verif.Base Require Import CInt CStr CMem.
From Verif.Model Require Import Logger.
Import ListNotations.
Open Scope list_scope.

Fixpoint log_each (opened : bool) (locks writes : call -> bool) (s : buffers) (cs : list call) : cres (list lcall) :=
  match cs with
  | [] => Val []
  | c :: cs =>
      cbind (log_write opened (locks c) (writes c) s c) (fun '(l, s) =>
      cbind (log_each opened locks writes s cs) (fun m => Val (l ++ m)))
  end.
Definition log_session (opened : bool) (name : str) (locks writes : call -> bool) (cs : list call) : cres (list lcall) :=
  cbind (log_each opened locks writes fresh_buffers cs) (fun l => Val (log_open opened name ++ l)).

(** What it printed to stderr. *)
Fixpoint printed (l : list lcall) : str :=
  match l with
  | [] => []
  | LStderr t :: l => t ++ printed l
  | _ :: l => printed l
  end.
(** It touched the log file. *)
Definition uses_file (c : lcall) : Prop := match c with LStderr _ => False | _ => True end.
