(** The samples for the reports: the hypotheses are met. *)
From Coq Require Import ZArith Bool List String Lia.
From Verif.Base Require Import CInt CStr.
From Verif.Model Require Import Config Runner Seccomp Child Program.
From Verif.Spec Require Import Syscalls Verdict RunSpec Samples SandboxSpec ChildSamples ContainSpec ContainSamples ReportSpec.
From Verif.Proofs Require Import SeccompProofs SampleFacts ContainSampleFacts.
Import ListNotations.
Open Scope list_scope.
Open Scope Z_scope.

Lemma sub_reported nm u x r core : wf_outcome (seen x core) ->
  (exists ef, run (sub_config nm u) (sample_env (wait_status (seen x core)) sample_usage) = Returns (Val r) ef) ->
  reported (sub_config nm u) x r.
Proof.
  intros W (ef & R). exists (sample_env (wait_status (seen x core)) sample_usage), core, sample_usage, ef. split; [|exact R].
  exact (sample_env_judged (seen x core) sample_usage W ltac:(apply tv_ok_b; reflexivity) ltac:(unfold rss_ok; cbn; lia)).
Qed.

(** A program under general reads its input and then calls fork. *)
Definition forks : list event := [Calls 7 (call "read" [0; 4096; 100]); Calls 7 (call "fork" [])].
Definition ends_well : list event := [Calls 7 (call "read" [0; 4096; 100]); Calls 7 (call "exit_group" [256])].

Lemma forks_run : exists w', runs (two (Some "general"%string) 65534 65533) forks w' /\ w' 7%nat = Some (inr (Signaled 31)).
Proof.
  eexists. split.
  - eapply runs_cons; [eapply step_allowed; [reflexivity|vm_compute; reflexivity|apply ex_none]|].
    eapply runs_cons; [eapply step_killed; [reflexivity|vm_compute; reflexivity]|]. apply runs_nil.
  - vm_compute. reflexivity.
Qed.

Lemma ends_well_run : exists w', runs (two (Some "general"%string) 65534 65533) ends_well w' /\ w' 7%nat = Some (inr (Program.Exited 0)).
Proof.
  eexists. split.
  - eapply runs_cons; [eapply step_allowed; [reflexivity|vm_compute; reflexivity|apply ex_none]|].
    eapply runs_cons; [eapply step_allowed; [reflexivity|vm_compute; reflexivity|eapply ex_exit; reflexivity]|]. apply runs_nil.
  - vm_compute. reflexivity.
Qed.

Lemma forks_known : known_calls (two (Some "general"%string) 65534 65533) forks.
Proof.
  intros q sc [H|[H|[]]]; injection H as <- <-.
  - left. apply existsb_In. vm_compute. reflexivity.
  - right. eexists. split; [reflexivity|]. vm_compute. discriminate.
Qed.
Lemma ends_well_known : known_calls (two (Some "general"%string) 65534 65533) ends_well.
Proof. intros q sc [H|[H|[]]]; injection H as <- <-; left; apply existsb_In; vm_compute; reflexivity. Qed.
