(** How long a judged program lives, for the statements about what run() tells about it. *)
From Coq Require Import ZArith Bool List.
From Verif.Base Require Import CInt CStr.
From Verif.Model Require Import Config Runner Timeout.
From Verif.Spec Require Import Verdict RunSpec.
Import ListNotations.
Open Scope Z_scope.

(** The program ends by itself: it exits, or a signal other than the SIGKILL of the timeout ends it. *)
Inductive own_end : op -> outcome -> Prop :=
| EndExit : forall code, own_end (Exit code) (Exited code)
| EndSignal : forall sig core, own_end (Die sig core) (Killed sig core).

(** It ends in any way, the SIGKILL included. *)
Inductive any_end : op -> outcome -> Prop :=
| EndOwn : forall x o, own_end x o -> any_end x o
| EndKill : any_end Deliver (Killed 9 false).

(** In the execution [ops] the program ends in the way [kind] says, with outcome [o], [life] microseconds after it was started. *)
Definition lives (kind : op -> outcome -> Prop) (P : tparams) (s0 : tstate) (ops : list op) (o : outcome) (life : Z) : Prop :=
  exists pre x post s1,
    ops = pre ++ x :: post /\ kind x o /\ exec P s0 pre = Some s1 /\ life = mono s1 - t_fork s1.

(** It never ends by itself. *)
Definition endless (ops : list op) : Prop := forall x o, own_end x o -> ~ In x ops.

(** The signals that run() does not read as a matter of time: SIGUSR1 and SIGSEGV. *)
Definition other_signal (o : outcome) : Prop := exists sig core, o = Killed sig core /\ (sig = 10 \/ sig = 11).
