(** What the caller is told about a program that ran under a rule: vocabulary
    that joins the life of programs (Model/Program.v) and the result of run(). *)
From Coq Require Import ZArith Bool List String.
From Verif.Base Require Import CInt CStr.
From Verif.Model Require Import Config Runner Seccomp Child Program.
From Verif.Spec Require Import Syscalls Verdict RunSpec.
Import ListNotations.
Open Scope Z_scope.

(** The way a program ended, as wait4(2) describes it. *)
Definition seen (x : ending) (core : bool) : outcome :=
  match x with
  | Program.Exited n => Verdict.Exited n
  | Signaled sig => Killed sig core
  end.

(** [r] can be the result of a call for [c] whose program ended as [x]. *)
Definition reported (c : config) (x : ending) (r : result) : Prop :=
  exists e core ru ef, RunSpec.judged c e (seen x core) ru /\ run c e = Returns (Val r) ef.

(** Every call of [evs] is one whose effect is modelled, or does not pass the
    filter its process had at the start. *)
Definition known_calls (w : world) (evs : list event) : Prop :=
  forall q sc, In (Calls q sc) evs ->
    In (sc_name sc) modelled \/ exists Q, w q = Some (inl Q) /\ filters_action (p_filters Q) sc <> ActAllow.

(** The call [sc] is against the rule the configuration names; [ptr] is the
    address of exe_path, and [known] tells whether libseccomp knows execveat. *)
Definition against (known : bool) (c : config) (ptr : Z) (sc : syscall) : Prop :=
  (seccomp_rule_name c = Some (lit "c_cpp") /\ ~ c_cpp_permits ptr sc) \/
  (seccomp_rule_name c = Some (lit "c_cpp_file_io") /\ ~ c_cpp_file_io_permits ptr sc) \/
  (seccomp_rule_name c = Some (lit "general") /\ general_kills known ptr sc) \/
  (seccomp_rule_name c = Some (lit "golang") /\ golang_kills known sc) \/
  (seccomp_rule_name c = Some (lit "node") /\ node_kills known sc).

(** A limit was exceeded, by the measured values of the result. *)
Definition over_a_limit (c : config) (r : result) : Prop :=
  exceeded (max_cpu_time c) (cpu_time r) \/ exceeded (max_real_time c) (real_time r) \/ exceeded (max_memory c) (memory r).
