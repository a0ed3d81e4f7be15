(** C104: what the caller is told about a program that breaks its rule, for all
    histories of system calls of all processes, under every rule.  [runs], and
    what a program is that the judger has started, are those of C66; [reported c x r]
    says that a call for [c] whose program ends as [x] returns [r]. *)
From Coq Require Import ZArith Bool List String Lia.
From Verif.Base Require Import CInt CStr.
From Verif.Model Require Import Config Runner Seccomp Child Program.
From Verif.Spec Require Import Syscalls Verdict RunSpec Samples SandboxSpec ChildSamples ContainSpec ContainSamples ReportSpec.
From Verif.Proofs Require Import ReportProofs ReportFacts ContainSampleFacts.
Import ListNotations.
Open Scope list_scope.
Open Scope Z_scope.

(** A call against the rule, at any place of the history, ends the program, and
    the result names signal 31; the verdict is RUNTIME_ERROR unless a limit is
    exceeded as well, never SUCCESS and never SYSTEM_ERROR. *)
Theorem C104_forbidden : forall c ptr P0 w evs w' p sc,
  ContainSpec.judged c ptr P0 -> w p = Some (inl P0) -> known_calls w evs ->
  runs w evs w' -> In (Calls p sc) evs -> against false c ptr sc ->
  w' p = Some (inr (Signaled 31)) /\
  forall r, reported c (Signaled 31) r ->
    error r = 0 /\ signal r = 31 /\ exit_code r = 0 /\ In (verdict r) [1; 2; 3; 4] /\ (verdict r = 4 <-> ~ over_a_limit c r).
Proof. exact c104_forbidden. Qed.
Print Assumptions C104_forbidden.

(** Under general, fork after reading. *)
Example C104_forbidden_case : exists w',
  ContainSpec.judged (sub_config (Some "general"%string) 65534) sub_ptr (sub_program (Some "general"%string) 65534) /\
  two (Some "general"%string) 65534 65533 7%nat = Some (inl (sub_program (Some "general"%string) 65534)) /\
  known_calls (two (Some "general"%string) 65534 65533) forks /\
  runs (two (Some "general"%string) 65534 65533) forks w' /\ In (Calls 7 (call "fork" [])) forks /\
  against false (sub_config (Some "general"%string) 65534) sub_ptr (call "fork" []) /\
  w' 7%nat = Some (inr (Signaled 31)) /\
  reported (sub_config (Some "general"%string) 65534) (Signaled 31) (mkResult 80 120 1536000 31 0 0 4).
Proof.
  destruct forks_run as (w' & R & H). exists w'.
  split; [apply sub_judged; [lia|cbn; tauto]|]. split; [reflexivity|]. split; [exact forks_known|]. split; [exact R|].
  split; [right; left; reflexivity|]. split; [do 2 right; left; split; [reflexivity|]; right; left; cbn; tauto|].
  split; [exact H|]. apply (sub_reported _ _ _ _ false); [cbn; lia|]. eexists. vm_compute. reflexivity.
Qed.

(** SUCCESS: no call was against the rule, no signal ended the program, and the
    last thing it did was to exit with a status whose low byte is 0. *)
Theorem C104_success : forall c ptr P0 w evs w' p x r,
  ContainSpec.judged c ptr P0 -> w p = Some (inl P0) -> known_calls w evs ->
  runs w evs w' -> w' p = Some (inr x) -> reported c x r -> verdict r = 0 ->
  (forall sc, In (Calls p sc) evs -> ~ against false c ptr sc) /\
  (forall sig, ~ In (Hit p sig) evs) /\
  (exists l sc l', evs = l ++ Calls p sc :: l' /\ sc_name sc = "exit_group"%string /\ sc_arg sc 0 mod 256 = 0 /\
     existsb (of_proc p) l' = false) /\
  ~ over_a_limit c r.
Proof. exact c104_success. Qed.
Print Assumptions C104_success.

Example C104_success_case : exists w',
  known_calls (two (Some "general"%string) 65534 65533) ends_well /\
  runs (two (Some "general"%string) 65534 65533) ends_well w' /\ w' 7%nat = Some (inr (Program.Exited 0)) /\
  reported (sub_config (Some "general"%string) 65534) (Program.Exited 0) (mkResult 80 120 1536000 0 0 0 0).
Proof.
  destruct ends_well_run as (w' & R & H). exists w'. split; [exact ends_well_known|]. split; [exact R|]. split; [exact H|].
  apply (sub_reported _ _ _ _ false); [cbn; lia|]. eexists. vm_compute. reflexivity.
Qed.

(** A reported signal: the program made a call against its rule (signal 31), or
    the signal came from the kernel or from outside. *)
Theorem C104_signal : forall c ptr P0 w evs w' p x r,
  ContainSpec.judged c ptr P0 -> seccomp_rule_name c <> None -> w p = Some (inl P0) -> known_calls w evs ->
  runs w evs w' -> w' p = Some (inr x) -> reported c x r -> signal r <> 0 ->
  (signal r = 31 /\ exists sc, In (Calls p sc) evs /\ against true c ptr sc) \/ In (Hit p (signal r)) evs.
Proof. exact c104_signal. Qed.
Print Assumptions C104_signal.

(** Under c_cpp and c_cpp_file_io [known_calls] says nothing: it always holds. *)
Theorem C104_known : forall w evs w', all_started w -> runs w evs w' -> known_calls w evs.
Proof. exact c104_known. Qed.
Print Assumptions C104_known.

Example C104_known_case : exists w', all_started (two (Some "c_cpp"%string) 65534 65533) /\
  runs (two (Some "c_cpp"%string) 65534 65533) [Calls 8 (call "socket" [2; 1; 0]); Calls 7 (call "exit_group" [0])] w' /\
  w' 8%nat = Some (inr (Signaled 31)) /\ w' 7%nat = Some (inr (Program.Exited 0)).
Proof.
  eexists. split; [apply two_started; lia|]. split.
  - eapply runs_cons; [eapply step_killed; [reflexivity|vm_compute; reflexivity]|].
    eapply runs_cons; [eapply step_allowed; [reflexivity|vm_compute; reflexivity|eapply ex_exit; reflexivity]|]. apply runs_nil.
  - vm_compute. split; reflexivity.
Qed.

(** Without the restriction to calls that are modelled it is not so: after clone,
    a call against golang ends one thread only, and the result is SUCCESS. *)
Theorem C104_threads_refuted : exists c ptr P0 w evs w' p sc r,
  ContainSpec.judged c ptr P0 /\ seccomp_rule_name c = Some (lit "golang") /\ w p = Some (inl P0) /\ runs w evs w' /\
  In (Calls p sc) evs /\ against false c ptr sc /\
  w' p = Some (inr (Program.Exited 0)) /\ reported c (Program.Exited 0) r /\ verdict r = 0.
Proof.
  exists (sub_config (Some "golang"%string) 65534), sub_ptr, (sub_program (Some "golang"%string) 65534),
    (two (Some "golang"%string) 65534 65533), [Calls 7 (call "clone" []); Calls 7 (call "kill" [1; 9]); Calls 7 (call "exit_group" [0])].
  eexists. exists 7%nat, (call "kill" [1; 9]), (mkResult 80 120 1536000 0 0 0 0).
  split; [apply sub_judged; [lia|cbn; tauto]|]. split; [reflexivity|]. split; [reflexivity|]. split.
  - eapply runs_cons; [eapply step_allowed; [reflexivity|vm_compute; reflexivity|eapply ex_thread; reflexivity]|].
    eapply runs_cons; [eapply step_killed; [reflexivity|vm_compute; reflexivity]|].
    eapply runs_cons; [eapply step_allowed; [reflexivity|vm_compute; reflexivity|eapply ex_exit; reflexivity]|]. apply runs_nil.
  - split; [right; left; reflexivity|].
    split; [do 3 right; left; split; [reflexivity|]; right; left; cbn; tauto|].
    split; [vm_compute; reflexivity|]. split; [|reflexivity].
    apply (sub_reported _ _ _ _ false); [cbn; lia|]. eexists. vm_compute. reflexivity.
Qed.
Print Assumptions C104_threads_refuted.
