(** Programs that send signals to each other, on top of Model/Program.v: the calls of the kill(2) family that the
    profiles of src/rules let through (general.c:12-20, golang.c:12-20 and node.c:12-20 name only kill;
    c_cpp.c:12-24 none of them).

    The kernel's part follows kill(2), tgkill(2), rt_sigqueueinfo(2) and pidfd_send_signal(2): a signal reaches a
    process if the sender is privileged or one of its real and effective user ids is the real or the saved one of the
    process.  Simplifications: a signal ends the process or does nothing (ignored, caught, number 0); signals that
    stop are not modelled; numbers of threads other than the first are not modelled, so that tkill, and descriptors
    of processes, reach any process. *)
From Coq Require Import ZArith Bool List String.
From Verif.Base Require Import CInt CStr.
From Verif.Model Require Import Config Runner Seccomp Child Program.
Import ListNotations.
Open Scope list_scope.
Open Scope Z_scope.

Definition signal_calls : list string :=
  ["kill"; "tkill"; "tgkill"; "rt_sigqueueinfo"; "rt_tgsigqueueinfo"; "pidfd_send_signal"]%string.

(** The arguments are ints. *)
Definition int_arg (sc : syscall) (i : nat) : Z := cast_int (sc_arg sc i).

(** Can the call be meant for process [q]?  kill with 0, -1 or a negative number is meant for many. *)
Definition meant_for (sc : syscall) (q : nat) : bool :=
  if String.eqb (sc_name sc) "kill" then (int_arg sc 0 =? Z.of_nat q) || (int_arg sc 0 <=? 0)
  else if String.eqb (sc_name sc) "tkill" || String.eqb (sc_name sc) "pidfd_send_signal" then true
  else int_arg sc 0 =? Z.of_nat q.
Definition signal_of (sc : syscall) : Z :=
  int_arg sc (if String.eqb (sc_name sc) "tgkill" || String.eqb (sc_name sc) "rt_tgsigqueueinfo" then 2 else 1).

(** kill(2): permission. *)
Definition may_signal (P Q : proc) : bool :=
  privileged P ||
  (ruid (p_cred P) =? ruid (p_cred Q)) || (ruid (p_cred P) =? suid (p_cred Q)) ||
  (euid (p_cred P) =? ruid (p_cred Q)) || (euid (p_cred P) =? suid (p_cred Q)).

(** [w'] is [w] after the call of [P] has been delivered. *)
Definition delivered (w : world) (P : proc) (sc : syscall) (w' : world) : Prop :=
  forall q, w' q = w q \/
    exists Q, w q = Some (inl Q) /\ meant_for sc q = true /\ may_signal P Q = true /\ signal_of sc <> 0 /\
              w' q = Some (inr (Signaled (signal_of sc))).

Inductive nstep (w : world) : event -> world -> Prop :=
| n_call p sc w' : In (sc_name sc) modelled -> step w (Calls p sc) w' -> nstep w (Calls p sc) w'
| n_denied p P sc w' : w p = Some (inl P) -> filters_action (p_filters P) sc <> ActAllow -> step w (Calls p sc) w' ->
    nstep w (Calls p sc) w'
| n_signal p P sc w' : w p = Some (inl P) -> In (sc_name sc) signal_calls -> filters_action (p_filters P) sc = ActAllow ->
    delivered w P sc w' -> nstep w (Calls p sc) w'
| n_hit p sig w' : step w (Hit p sig) w' -> nstep w (Hit p sig) w'.

Inductive nruns (w : world) : list event -> world -> Prop :=
| nruns_nil : nruns w [] w
| nruns_cons e w1 evs w2 : nstep w e w1 -> nruns w1 evs w2 -> nruns w (e :: evs) w2.
