(** C66-C68, and C20 for the time after the start: what judged programs can do
    while they run.  [runs w evs w'] says that the processes of [w] make the
    system calls [evs] (in any interleaving, with any arguments) and reach [w']. *)
From Coq Require Import ZArith Bool List String Lia.
From Verif.Base Require Import CInt CStr.
From Verif.Model Require Import Config Runner Seccomp Child Program.
From Verif.Spec Require Import Syscalls SandboxSpec ChildSamples ContainSpec ContainSamples.
From Verif.Proofs Require Import ProgramProofs ContainSampleFacts.
Import ListNotations.
Open Scope list_scope.
Open Scope Z_scope.

(** C66 *)
Theorem C66_contained : forall w evs w', all_started w -> runs w evs w' ->
  (forall p, w p = None <-> w' p = None) /\
  (forall p P, w' p = Some (inl P) ->
     exists P0, w p = Some (inl P0) /\ held P0 P /\ (c_cpp_program P0 -> no_new_outputs P0 P)).
Proof. exact contained. Qed.
Print Assumptions C66_contained.

(** A program is over only because it exited, made a call its filter forbids,
    or was hit by a signal from the kernel or from outside. *)
Theorem C66_ways_to_end : forall w evs w', all_started w -> runs w evs w' -> forall p e, w' p = Some (inr e) ->
  (exists sc, In (Calls p sc) evs /\ sc_name sc = "exit_group"%string /\ e = Exited (sc_arg sc 0 mod 256)) \/
  (exists sc P0, In (Calls p sc) evs /\ w p = Some (inl P0) /\ filters_action (p_filters P0) sc = ActKill /\ e = Signaled 31) \/
  (exists sig, In (Hit p sig) evs /\ e = Signaled sig).
Proof. exact endings. Qed.
Print Assumptions C66_ways_to_end.

(** A program opens a file for reading, closes its standard error, lowers its
    own CPU limit and exits with code 3, while another calls socket. *)
Example C66_sample :
  all_started (two (Some "c_cpp"%string) 65534 65534) /\
  exists w', runs (two (Some "c_cpp"%string) 65534 65534)
    [Calls 7 (call "openat" [4294967196; 4096; 0]); Calls 7 (call "close" [2]); Calls 8 (call "socket" [2; 1; 0]);
     Calls 7 (call "prlimit64" [0; 0; 4096; 0]); Calls 7 (call "exit_group" [3])] w' /\
  w' 7%nat = Some (inr (Exited 3)) /\ w' 8%nat = Some (inr (Signaled 31)) /\ w' 9%nat = None.
Proof.
  split; [apply two_started; lia|]. eexists. split.
  - eapply runs_cons; [eapply step_allowed; [reflexivity|vm_compute; reflexivity|eapply (ex_open _ _ _ _ 0 (lit "f") 9 9); [right; split; reflexivity|vm_compute; reflexivity]]|].
    eapply runs_cons; [eapply step_allowed; [reflexivity|vm_compute; reflexivity|eapply (ex_close _ _ _ _ 2); reflexivity]|].
    eapply runs_cons; [eapply step_killed; [reflexivity|vm_compute; reflexivity]|].
    eapply runs_cons; [eapply step_allowed; [reflexivity|vm_compute; reflexivity|eapply (ex_prlimit _ _ _ _ 7 _ RCpu 1 1);
      [reflexivity|reflexivity|left; split; reflexivity|reflexivity|left; reflexivity|lia|left; vm_compute; discriminate]]|].
    eapply runs_cons; [eapply step_allowed; [reflexivity|vm_compute; reflexivity|eapply ex_exit; reflexivity]|].
    apply runs_nil.
  - vm_compute. auto.
Qed.

(** Under c_cpp_file_io new outputs are possible. *)
Theorem C66_no_new_outputs_file_io_refuted : exists w evs w' p P0 P,
  all_started w /\ runs w evs w' /\ w p = Some (inl P0) /\ w' p = Some (inl P) /\
  c_cpp_file_io_program P0 /\ ~ no_new_outputs P0 P.
Proof.
  exists (two (Some "c_cpp_file_io"%string) 65534 65534), [Calls 7 (call "open" [4096; 1])]. eexists. exists 7%nat, (sub_program (Some "c_cpp_file_io"%string) 65534). eexists.
  split; [apply two_file_io; lia|]. split.
  - eapply runs_cons; [eapply step_allowed; [reflexivity|vm_compute; reflexivity|eapply (ex_open _ _ _ _ 1 (lit "f") 9 9); [left; split; reflexivity|vm_compute; reflexivity]]|].
    apply runs_nil.
  - split; [reflexivity|]. split; [reflexivity|]. split; [apply sub_file_io; lia|].
    intros N. destruct (N 9%nat (mkOf 9 (lit "f") MWrite)) as (m & H); [vm_compute; reflexivity|discriminate|].
    do 10 (destruct m as [|m]; [vm_compute in H; discriminate|]). unfold fd in H.
    destruct (nth_error (p_fds (sub_program (Some "c_cpp_file_io"%string) 65534)) (S (S (S (S (S (S (S (S (S (S m))))))))))) eqn:E.
    + assert (nth_error (p_fds (sub_program (Some "c_cpp_file_io"%string) 65534)) (S (S (S (S (S (S (S (S (S (S m)))))))))) <> None) as X by congruence.
      apply nth_error_Some in X. assert (List.length (p_fds (sub_program (Some "c_cpp_file_io"%string) 65534)) <= 10)%nat as Y by (vm_compute; lia). lia.
    + discriminate.
Qed.
Print Assumptions C66_no_new_outputs_file_io_refuted.

(** C67: a program with a user id of its own is in the state in which its own
    calls alone would have put it. *)
Theorem C67_isolated : forall w evs w' q, all_started w -> own_user w q -> runs w evs w' ->
  exists u, runs w (List.filter (of_proc q) evs) u /\ u q = w' q.
Proof. exact isolated. Qed.
Print Assumptions C67_isolated.

(** Programs with the same user id can lower each other's limits, and nothing else. *)
Theorem C67_others_only_lower_limits : forall w evs w' q Q0, all_started w -> runs w evs w' ->
  w q = Some (inl Q0) -> existsb (of_proc q) evs = false ->
  exists Q, w' q = Some (inl Q) /\
    p_fds Q = p_fds Q0 /\ p_cred Q = p_cred Q0 /\ p_filters Q = p_filters Q0 /\ p_nnp Q = p_nnp Q0 /\
    p_threads Q = p_threads Q0 /\ forall r, snd (p_rlim Q r) <= snd (p_rlim Q0 r).
Proof. exact undisturbed_but_limits. Qed.
Print Assumptions C67_others_only_lower_limits.

Example C67_sample : all_started (two (Some "c_cpp"%string) 65533 65534) /\ own_user (two (Some "c_cpp"%string) 65533 65534) 8.
Proof.
  split; [apply two_started; lia|apply two_own; lia].
Qed.

(** Two c_cpp programs judged with the same user id: one takes the other's CPU time away. *)
Theorem C67_isolated_same_user_refuted : exists w evs w' q Q0 Q,
  all_started w /\ runs w evs w' /\ existsb (of_proc q) evs = false /\
  w q = Some (inl Q0) /\ c_cpp_program Q0 /\ p_rlim Q0 RCpu = (2, 2) /\
  w' q = Some (inl Q) /\ p_rlim Q RCpu = (0, 0).
Proof.
  exists (two (Some "c_cpp"%string) 65534 65534), [Calls 7 (call "prlimit64" [8; 0; 4096; 0])]. eexists. exists 8%nat. do 2 eexists.
  split; [apply two_started; lia|]. split.
  - eapply runs_cons; [eapply step_allowed; [reflexivity|vm_compute; reflexivity|eapply (ex_prlimit _ _ _ _ 8 _ RCpu 0 0);
      [reflexivity|reflexivity|right; reflexivity|reflexivity|right; vm_compute; reflexivity|lia|left; vm_compute; discriminate]]|].
    apply runs_nil.
  - split; [reflexivity|]. split; [reflexivity|]. split; [apply sub_c_cpp; lia|]. split; [vm_compute; reflexivity|].
    split; reflexivity.
Qed.
Print Assumptions C67_isolated_same_user_refuted.

(** C68 *)
Theorem C68_forbidden_call_ends_program : forall w evs w' p P0 P sc, all_started w -> runs w evs w' ->
  w p = Some (inl P0) -> w' p = Some (inl P) -> filters_action (p_filters P0) sc <> ActAllow ->
  exists w'', step w' (Calls p sc) w'' /\
  forall v, step w' (Calls p sc) v -> v p = Some (inr (Signaled 31)) /\ forall q, q <> p -> v q = w' q.
Proof. exact forbidden_ends. Qed.
Print Assumptions C68_forbidden_call_ends_program.

Example C68_sample :
  filters_action (p_filters (sub_program (Some "c_cpp"%string) 65534)) (call "socket" [2; 1; 0]) <> ActAllow /\
  filters_action (p_filters (sub_program (Some "c_cpp"%string) 65534)) (call "write" [1; 4096; 5]) = ActAllow.
Proof. vm_compute. split; [discriminate|reflexivity]. Qed.

(** Under golang a program goes on after a forbidden call made by a second thread. *)
Theorem C68_golang_refuted : exists w evs w' p P0 P sc c ptr,
  judged c ptr P0 /\ seccomp_rule_name c = Some (lit "golang") /\ w p = Some (inl P0) /\
  runs w evs w' /\ In (Calls p sc) evs /\ filters_action (p_filters P0) sc = ActKill /\ w' p = Some (inl P).
Proof.
  exists (two (Some "golang"%string) 65534 65534), [Calls 7 (call "clone" []); Calls 7 (call "kill" [1; 9])]. eexists. exists 7%nat.
  do 2 eexists. exists (call "kill" [1; 9]), (sub_config (Some "golang"%string) 65534), sub_ptr.
  split; [apply sub_judged; [lia|cbn; auto 6]|]. split; [reflexivity|]. split; [reflexivity|]. split.
  - eapply runs_cons; [eapply step_allowed; [reflexivity|vm_compute; reflexivity|eapply ex_thread; reflexivity]|].
    eapply runs_cons; [eapply step_killed; [reflexivity|vm_compute; reflexivity]|]. apply runs_nil.
  - split; [right; left; reflexivity|]. split; [vm_compute; reflexivity|]. vm_compute. reflexivity.
Qed.
Print Assumptions C68_golang_refuted.

(** C20 after the start: under any profile the identity does not change through
    set*id, execve or any other call that is modelled. *)
Theorem C20_no_way_back : forall c ptr w evs w' p P0 P,
  judged c ptr P0 -> as_user c -> seccomp_rule_name c <> None ->
  (forall q sc, In (Calls q sc) evs -> In (sc_name sc) modelled) ->
  runs w evs w' -> w p = Some (inl P0) -> w' p = Some (inl P) ->
  p_cred P = mkCred (uid c) (uid c) (uid c) (gid c) (gid c) (gid c) [gid c].
Proof. exact never_root_again. Qed.
Print Assumptions C20_no_way_back.

Example C20_no_way_back_sample :
  judged (sub_config (Some "golang"%string) 65534) sub_ptr (sub_program (Some "golang"%string) 65534) /\
  as_user (sub_config (Some "golang"%string) 65534) /\
  exists w', runs (two (Some "golang"%string) 65534 65534)
    [Calls 7 (call "execve" [4096]); Calls 7 (call "setuid" [0])] w'.
Proof.
  split; [apply sub_judged; [lia|cbn; auto 6]|]. split; [apply sub_user; lia|]. eexists.
  eapply runs_cons; [eapply step_allowed; [reflexivity|vm_compute; reflexivity|
      eapply (ex_execve _ _ _ _ [] (mkCred 65534 65534 65534 65534 65534 65534 [65534])); [reflexivity|intros n d H; destruct n; discriminate|vm_compute; reflexivity]]|].
  eapply runs_cons; [eapply step_allowed; [reflexivity|vm_compute; reflexivity|apply ex_none]|]. apply runs_nil.
Qed.

(** Without a profile no_new_privs is not set: a set-uid file gives root back. *)
Theorem C20_no_way_back_without_profile_refuted : exists c ptr w evs w' p P0 P,
  judged c ptr P0 /\ as_user c /\ seccomp_rule_name c = None /\
  (forall q sc, In (Calls q sc) evs -> In (sc_name sc) modelled) /\
  runs w evs w' /\ w p = Some (inl P0) /\ w' p = Some (inl P) /\ euid (p_cred P0) = 65534 /\ euid (p_cred P) = 0.
Proof.
  exists (sub_config None 65534), sub_ptr, (two None 65534 65534), [Calls 7 (call "execve" [4096])]. eexists. exists 7%nat. do 2 eexists.
  split; [apply sub_judged; [lia|cbn; auto 6]|]. split; [apply sub_user; lia|]. split; [reflexivity|].
  split; [intros q sc [H|[]]; injection H as <- <-; cbn; auto 40|]. split.
  - eapply runs_cons; [eapply step_allowed; [reflexivity|vm_compute; reflexivity|
      eapply (ex_execve _ _ _ _ [] (mkCred 65534 0 0 65534 65534 65534 [65534])); [reflexivity|intros n d H; destruct n; discriminate|vm_compute; auto]]|].
    apply runs_nil.
  - split; [reflexivity|]. split; [reflexivity|]. split; vm_compute; reflexivity.
Qed.
Print Assumptions C20_no_way_back_without_profile_refuted.
