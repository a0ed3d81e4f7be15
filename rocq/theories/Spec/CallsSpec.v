(** Several calls of run() in one process. *)
From Coq Require Import ZArith Bool List.
From Verif.Base Require Import CInt CStr.
From Verif.Model Require Import Config Runner Timeout Calls.
From Verif.Spec Require Import Verdict RunSpec TimeoutSpec LifeSpec.
Import ListNotations.
Open Scope Z_scope.

(** The history of a call, and its state at the beginning. *)
Definition events (c : call) : list op := map snd (c_past c).
Definition began (c : call) : tstate := init (c_mono c) (c_wall c).

(** Its program was ended by a signal of call [i]. *)
Definition ended_by (i : nat) (c : call) : Prop := exists sig core, In (Other i, Die sig core) (c_past c).

(** A call under ordinary circumstances: a limit of real time, nothing fails, nobody adjusts the clock or stops the program, and
    nobody who can act waits for more than [lag] microseconds. *)
Definition ordinary (lag : Z) (c : call) : Prop :=
  1 <= max_real_time (p_config (c_par c)) <= 2147482647 /\ p_autoreap (c_par c) = false /\
  args_intact (events c) /\ not_interrupted (events c) /\ calls_succeed (events c) /\ steady_clock (events c) /\
  never_stopped (events c) /\ prompt (c_par c) lag (began c) (events c).

(** If its program has ended, it did so in time. *)
Definition in_good_time (lag : Z) (c : call) : Prop :=
  forall o life, lives any_end (c_par c) (began c) (events c) o life ->
                 life + 5 * lag <= 1000 * max_real_time (p_config (c_par c)).
