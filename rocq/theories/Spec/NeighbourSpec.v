(** Programs side by side. *)
From Coq Require Import ZArith Bool List String.
From Verif.Base Require Import CInt CStr.
From Verif.Model Require Import Config Seccomp Child Program.
From Verif.Spec Require Import SandboxSpec ContainSpec.
Import ListNotations.
Open Scope list_scope.
Open Scope Z_scope.

(** Process [p] is a program just started for user [u] (not root) under some profile. *)
Definition program_as (w : world) (p : nat) (u : Z) : Prop :=
  exists P c ptr, w p = Some (inl P) /\ judged c ptr P /\ as_user c /\ seccomp_rule_name c <> None /\ uid c = u.

(** All calls of the history are made by programs started for users that [allowed] describes. *)
Definition callers (w : world) (evs : list event) (allowed : Z -> Prop) : Prop :=
  forall p sc, In (Calls p sc) evs -> exists u, program_as w p u /\ allowed u.

(** Nobody outside (the kernel, the judger) ends [q]. *)
Definition not_hit (q : nat) (evs : list event) : Prop := forall sig, ~ In (Hit q sig) evs.
