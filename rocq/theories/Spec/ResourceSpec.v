(** What a call of run() acquires and gives back, read off its effects. *)
From Coq Require Import ZArith Bool List.
From Verif.Base Require Import CInt CStr.
From Verif.Model Require Import Config Runner.
From Verif.Spec Require Import Verdict.
Import ListNotations.
Open Scope Z_scope.

(** Opens or closes the log. *)
Definition on_log (f : effect) : Prop := match f with EfLogOpen _ | EfLogClose => True | _ => False end.

(** The log is opened first, closed last, and at no other time. *)
Definition log_tidy (path : str) (ef : list effect) : Prop :=
  exists mid, ef = [EfLogOpen path] ++ mid ++ [EfLogClose] /\ forall f, In f mid -> ~ on_log f.

(** A process was created, and it is no child of the caller any more: wait4
    reported its end. *)
Definition process_created (e : run_env) (ef : list effect) : Prop := In EfFork ef /\ 0 < e_fork e.
Definition process_reaped (e : run_env) (ef : list effect) : Prop :=
  In (EfWait (e_fork e)) ef /\
  exists o ru, e_wait4 e = Some (wait_status o, ru) /\ wf_outcome o /\ forall sig, o <> Stopped sig.

Definition thread_created (ef : list effect) : Prop := exists pid t, In (EfThread pid t) ef.
(** Cancelled after it was created and after the wait. *)
Definition thread_cancelled (ef : list effect) : Prop :=
  exists a pid t b c d, ef = a ++ [EfThread pid t] ++ b ++ [EfWait pid] ++ c ++ [EfCancel] ++ d /\
    forall f, In f (a ++ b ++ c ++ d) -> f <> EfCancel /\ (forall p u, f <> EfThread p u).

(** Log files opened and not closed. *)
Definition logs_open (ef : list effect) : Z :=
  fold_right (fun f n => match f with EfLogOpen _ => n + 1 | EfLogClose => n - 1 | _ => n end) 0 ef.
