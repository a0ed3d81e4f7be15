(** Programs side by side, with signals.  Specification: Spec/NeighbourSpec.v.  [nruns w evs w'] says that the processes
    of [w] make the calls [evs] (of those modelled and of the kill family) in any interleaving and reach [w']. *)
From Coq Require Import ZArith Bool List String.
From Verif.Base Require Import CInt CStr.
From Verif.Model Require Import Config Runner Seccomp Child Program Neighbours.
From Verif.Spec Require Import Verdict RunSpec Syscalls SandboxSpec Samples ChildSamples ContainSpec ContainSamples NeighbourSpec.
From Verif.Proofs Require Import NeighbourProofs NeighbourClaims.
Import ListNotations.
Open Scope list_scope.
Open Scope Z_scope.

(** Whatever programs under any profile do, a process of another user (its real and saved ids) stays exactly as it is. *)
Theorem C93_untouched : forall w evs w' q Q, w q = Some (inl Q) ->
  callers w evs (fun u => u <> ruid (p_cred Q) /\ u <> suid (p_cred Q)) -> not_hit q evs -> nruns w evs w' ->
  w' q = Some (inl Q).
Proof. exact untouched. Qed.
Print Assumptions C93_untouched.

(** So does everything of root, above all the judgers. *)
Theorem C93_judger_safe : forall w evs w' q Q, w q = Some (inl Q) -> ruid (p_cred Q) = 0 -> suid (p_cred Q) = 0 ->
  callers w evs (fun _ => True) -> not_hit q evs -> nruns w evs w' -> w' q = Some (inl Q).
Proof. exact judger_safe. Qed.
Print Assumptions C93_judger_safe.

Example C93_judger_sample :
  callers (beside (Some "general"%string)) [Calls 7 (call "tgkill" [5; 5; 9])] (fun _ => True) /\
  not_hit 5 [Calls 7 (call "tgkill" [5; 5; 9])] /\
  nruns (beside (Some "general"%string)) [Calls 7 (call "tgkill" [5; 5; 9])] (beside (Some "general"%string)).
Proof. exact beside_general. Qed.

(** A program with a user of its own is, under any profile, in the state in which its own calls alone would have put it. *)
Theorem C93_alone : forall w evs w' q u, program_as w q u -> callers w evs (fun _ => True) ->
  (forall p, p <> q -> ~ program_as w p u) -> nruns w evs w' ->
  exists x, nruns w (List.filter (of_proc q) evs) x /\ x q = w' q.
Proof. exact alone. Qed.
Print Assumptions C93_alone.

Example C93_apart :
  program_as (two (Some "node"%string) 1001 1002) 8 1002 /\
  (forall p, p <> 8%nat -> ~ program_as (two (Some "node"%string) 1001 1002) p 1002) /\
  callers (two (Some "node"%string) 1001 1002) [Calls 7 (call "tkill" [8; 9]); Calls 8 (call "exit_group" [3])] (fun _ => True) /\
  exists w', nruns (two (Some "node"%string) 1001 1002) [Calls 7 (call "tkill" [8; 9]); Calls 8 (call "exit_group" [3])] w' /\
    w' 8%nat = Some (inr (Program.Exited 3)).
Proof. exact apart. Qed.

(** Under c_cpp and c_cpp_file_io no signal is ever sent, so that C66-C68 hold of these histories too. *)
Theorem C93_no_signals : forall w evs w', all_started w -> nruns w evs w' -> runs w evs w'.
Proof. exact no_signals. Qed.
Print Assumptions C93_no_signals.

(** Under general, golang and node kill ends the caller, but its relatives are let through. *)
Theorem C93_filter : forall c ptr P nm sc, ContainSpec.judged c ptr P -> seccomp_rule_name c = Some nm ->
  In nm [lit "general"; lit "golang"; lit "node"] ->
  sc_native sc = true ->
  In (sc_name sc) ["kill"; "tkill"; "tgkill"; "rt_sigqueueinfo"; "rt_tgsigqueueinfo"; "pidfd_send_signal"]%string ->
  (sc_name sc = "kill"%string -> filters_action (p_filters P) sc = ActKill) /\
  (sc_name sc <> "kill"%string -> filters_action (p_filters P) sc = ActAllow).
Proof. exact signals_filter. Qed.
Print Assumptions C93_filter.

(** So each program can end every other one of the same user by any signal. *)
Theorem C93_can_end : forall w p q P Q c ptr nm sig, w p = Some (inl P) -> ContainSpec.judged c ptr P -> as_user c ->
  seccomp_rule_name c = Some nm -> In nm [lit "general"; lit "golang"; lit "node"] ->
  w q = Some (inl Q) -> ruid (p_cred Q) = uid c -> Z.of_nat q <= 2147483647 -> 1 <= sig <= 64 ->
  exists sc w', sc_name sc = "tgkill"%string /\ nstep w (Calls p sc) w' /\
    w' q = Some (inr (Signaled sig)) /\ forall r, r <> q -> w' r = w r.
Proof. exact can_end. Qed.
Print Assumptions C93_can_end.

(** And that one is reported a RUNTIME_ERROR. *)
Theorem C93_same_user_refuted : forall nm, In nm ["general"; "golang"; "node"]%string ->
  exists evs w' r ef,
    callers (two (Some nm) 1001 1001) evs (fun _ => True) /\
    nruns (two (Some nm) 1001 1001) evs w' /\ existsb (of_proc 8) evs = false /\
    two (Some nm) 1001 1001 8%nat = Some (inl (sub_program (Some nm) 1001)) /\
    w' 8%nat = Some (inr (Signaled 9)) /\
    RunSpec.judged (sub_config (Some nm) 1001) killed_env (Killed 9 false) (mkRu (mkTv 0 100000) (mkTv 0 2000) 1024) /\
    run (sub_config (Some nm) 1001) killed_env = Returns (Val r) ef /\ verdict r = RUNTIME_ERROR.
Proof. exact ended_by_neighbour. Qed.
Print Assumptions C93_same_user_refuted.

(** Without a profile not even the judger is safe: a set-uid file gives root. *)
Theorem C93_judger_without_profile_refuted : exists c ptr w evs w' P,
  w 7%nat = Some (inl P) /\ ContainSpec.judged c ptr P /\ as_user c /\ seccomp_rule_name c = None /\
  (forall p sc, In (Calls p sc) evs -> p = 7%nat) /\ w 5%nat = Some (inl judger) /\ ruid (p_cred judger) = 0 /\ suid (p_cred judger) = 0 /\
  not_hit 5 evs /\ nruns w evs w' /\ w' 5%nat = Some (inr (Signaled 9)).
Proof. exact judger_unsafe. Qed.
Print Assumptions C93_judger_without_profile_refuted.
