(** C22-C28: the seccomp filter under which the program runs.  [k] is the
    kernel state at the start of the program, [filters_action (k_filter k) sc]
    what the kernel does with system call [sc]. *)
From Coq Require Import ZArith Bool List String Lia.
From Verif.Base Require Import CInt CStr.
From Verif.Model Require Import Config Runner Seccomp Child.
From Verif.Spec Require Import Verdict RunSpec Syscalls SandboxSpec Samples ChildSamples.
From Verif.Proofs Require Import SeccompProofs ChildClaims SampleFacts.
From Verif.Props Require Import P02_Child.
Import ListNotations.
Open Scope list_scope.
Open Scope Z_scope.

(** The sample configuration with another rule name: the program starts, so the
    hypotheses below are met for each profile. *)
Definition ruled (nm : string) : config :=
  mkConfig 1000 2000 134217728 33554432 10 10000 0
           (lit "/bin/prog") (Some (lit "1.in")) (Some (lit "1.out")) (Some (lit "1.err"))
           [Ptr (lit "/bin/prog"); Null] [Null] (lit "judger.log") (Some (lit nm)) 65534 65534.

Example ruled_starts : forall nm, In nm ["c_cpp"; "c_cpp_file_io"; "general"; "golang"; "node"]%string ->
  ready (ruled nm) sample_k0 /\
  exists p a v k, child_process (sample_child_env None) sample_log (ruled nm) sample_k0 = CExec p a v k.
Proof.
  intros nm H. assert (ready (ruled nm) sample_k0) as R.
  { split; [repeat split; cbn; intros; discriminate|].
    split; [repeat split; cbn; unfold limit_ok; lia|]. split; [cbn; lia|apply sample_ready]. }
  split; [exact R|]. apply c13_program_starts; [assumption|apply sample_all_succeed| |reflexivity].
  cbn in H |- *. repeat destruct H as [<-|H]; cbn; auto 6.
Qed.

(** C22 *)
Theorem C22_rule_selection : forall env log c k0 p a v k,
  ready c k0 -> child_process env log c k0 = CExec p a v k ->
  known_rule (seccomp_rule_name c) /\
  (seccomp_rule_name c = None -> forall sc, filters_action (k_filter k) sc = ActAllow).
Proof. exact c22_selection. Qed.
Print Assumptions C22_rule_selection.

Example C22_unknown_name :
  exists k, child_process (sample_child_env None) sample_log (ruled "c_cp") sample_k0 = CKilled 10 k.
Proof. eexists. vm_compute. reflexivity. Qed.

(** C23: a program that runs under a profile was preceded by the success of
    every libseccomp call of that profile. *)
Theorem C23_fail_closed : forall env log c k0 nm p a v k,
  ready c k0 -> seccomp_rule_name c = Some nm ->
  child_process env log c k0 = CExec p a v k ->
  forall i, (i < seccomp_calls (ce_has_execveat env) nm)%nat -> ce_seccomp_ok env i = true.
Proof. exact c23_fail_closed. Qed.
Print Assumptions C23_fail_closed.

(** The last call of c_cpp (seccomp_load) fails. *)
Example C23_sample :
  exists k, child_process
    (mkCE (fun _ => true) (fun n => negb (Nat.eqb n 29)) true 4096 true true 0 true []) sample_log
    (ruled "c_cpp") sample_k0 = CKilled 10 k.
Proof. eexists. vm_compute. reflexivity. Qed.

(** C24 *)
Theorem C24_c_cpp : forall env log c k0 p a v k,
  ready c k0 -> child_process env log c k0 = CExec p a v k ->
  seccomp_rule_name c = Some (lit "c_cpp") ->
  forall sc, (filters_action (k_filter k) sc = ActAllow <-> c_cpp_permits (ce_exe_ptr env) sc) /\
             (filters_action (k_filter k) sc = ActKill <-> ~ c_cpp_permits (ce_exe_ptr env) sc).
Proof. exact c24_c_cpp. Qed.
Print Assumptions C24_c_cpp.

Theorem C24_c_cpp_file_io : forall env log c k0 p a v k,
  ready c k0 -> child_process env log c k0 = CExec p a v k ->
  seccomp_rule_name c = Some (lit "c_cpp_file_io") ->
  forall sc, (filters_action (k_filter k) sc = ActAllow <-> c_cpp_file_io_permits (ce_exe_ptr env) sc) /\
             (filters_action (k_filter k) sc = ActKill <-> ~ c_cpp_file_io_permits (ce_exe_ptr env) sc).
Proof. exact c24_c_cpp_file_io. Qed.
Print Assumptions C24_c_cpp_file_io.

(** What c_cpp and c_cpp_file_io do with some calls: read, open for reading and for writing, fork, a 32-bit read. *)
Definition sample_calls : list syscall :=
  [mkSys true "read" (fun _ => 0); mkSys true "openat" (fun a => 0); mkSys true "openat" (fun a => if Nat.eqb a 2 then 1 else 0);
   mkSys true "fork" (fun _ => 0); mkSys true "clone" (fun _ => 0); mkSys true "socket" (fun _ => 0); mkSys false "read" (fun _ => 0)].
Definition does_with (nm : string) : list action :=
  match child_process (sample_child_env None) sample_log (ruled nm) sample_k0 with
  | CExec _ _ _ k => map (filters_action (k_filter k)) sample_calls | _ => [] end.
Example C24_cases :
  does_with "c_cpp" = [ActAllow; ActAllow; ActKill; ActKill; ActKill; ActKill; ActKill] /\
  does_with "c_cpp_file_io" = [ActAllow; ActAllow; ActAllow; ActKill; ActKill; ActKill; ActKill].
Proof. vm_compute. split; reflexivity. Qed.

(** C25: no open permitted by c_cpp gives write access ... *)
Theorem C25_no_write_access : forall env log c k0 p a v k,
  ready c k0 -> child_process env log c k0 = CExec p a v k ->
  seccomp_rule_name c = Some (lit "c_cpp") ->
  forall sc fl, open_flags sc = Some fl -> filters_action (k_filter k) sc = ActAllow -> read_only fl.
Proof.
  intros env log c k0 p a v k R E N sc fl O A.
  apply (c24_c_cpp _ _ _ _ _ _ _ _ R E N) in A. destruct A as (_ & [H|[[H _]|(fl' & H & Ro)]]).
  - exfalso. unfold open_flags in O.
    destruct (String.eqb_spec (sc_name sc) "open") as [X|X].
    { rewrite X in H. apply existsb_In in H. discriminate H. }
    destruct (String.eqb_spec (sc_name sc) "openat") as [Y|Y]; [|discriminate].
    rewrite Y in H. apply existsb_In in H. discriminate H.
  - exfalso. unfold open_flags in O. rewrite H in O. discriminate.
  - congruence.
Qed.
Print Assumptions C25_no_write_access.

Example C25_case : open_flags (mkSys true "openat" (fun a => 0)) = Some 0 /\ read_only 0 /\
  nth_error (does_with "c_cpp") 1 = Some ActAllow /\
  open_flags (mkSys true "openat" (fun a => if Nat.eqb a 2 then 1 else 0)) = Some 1 /\ nth_error (does_with "c_cpp") 2 = Some ActKill.
Proof. repeat split; vm_compute; reflexivity. Qed.

(** ... but creating and truncating files is permitted. *)
Theorem C25_no_modification_refuted : exists env log c k0 p a v k sc fl,
  ready c k0 /\ child_process env log c k0 = CExec p a v k /\
  seccomp_rule_name c = Some (lit "c_cpp") /\
  open_flags sc = Some fl /\ may_create fl /\ may_truncate fl /\
  filters_action (k_filter k) sc = ActAllow.
Proof.
  exists (sample_child_env None), sample_log, (ruled "c_cpp"), sample_k0.
  do 4 eexists. exists (mkSys true "openat" (fun a => if Nat.eqb a 2 then 576 else 0)), 576.
  split; [apply ruled_starts; cbn; auto|]. split; [vm_compute; reflexivity|].
  repeat split; vm_compute; reflexivity.
Qed.
Print Assumptions C25_no_modification_refuted.

(** C26 *)
Theorem C26_general : forall env log c k0 p a v k,
  ready c k0 -> child_process env log c k0 = CExec p a v k ->
  seccomp_rule_name c = Some (lit "general") ->
  forall sc,
    let kills := general_kills (ce_has_execveat env) (ce_exe_ptr env) sc in
    (filters_action (k_filter k) sc = ActKill <-> kills) /\
    (filters_action (k_filter k) sc = ActErrno 13 <-> sc_native sc = true /\ sc_name sc = "socket"%string) /\
    (filters_action (k_filter k) sc = ActAllow <-> ~ kills /\ sc_name sc <> "socket"%string).
Proof. exact c26_general. Qed.
Print Assumptions C26_general.

Example C26_case : does_with "general" = [ActAllow; ActAllow; ActKill; ActKill; ActKill; ActErrno 13; ActKill].
Proof. vm_compute. reflexivity. Qed.

(** Other ways to create processes and to modify files are permitted, with any
    arguments. *)
Theorem C26_no_process_no_write_refuted : forall env log c k0 p a v k,
  ready c k0 -> child_process env log c k0 = CExec p a v k ->
  seccomp_rule_name c = Some (lit "general") ->
  forall nm arg, In nm ["clone3"; "creat"; "openat2"; "truncate"; "rename"; "unlink"; "mkdir"]%string ->
  filters_action (k_filter k) (mkSys true nm arg) = ActAllow.
Proof.
  intros env log c k0 p a v k R E N nm arg H.
  apply (c26_general _ _ _ _ _ _ _ _ R E N). unfold general_kills, is_execveat, open_flags. cbn [sc_name sc_native].
  cbn in H. repeat destruct H as [<-|H]; try (destruct H); cbn;
    (split; [|discriminate]; intros [X|[X|[[_ X]|[[X _]|(fl & X & _)]]]]; try discriminate; intuition discriminate).
Qed.
Print Assumptions C26_no_process_no_write_refuted.

(** C27 *)
Theorem C27_golang : forall env log c k0 p a v k,
  ready c k0 -> child_process env log c k0 = CExec p a v k ->
  seccomp_rule_name c = Some (lit "golang") ->
  forall sc,
    (filters_action (k_filter k) sc = ActKill <-> golang_kills (ce_has_execveat env) sc) /\
    (filters_action (k_filter k) sc = ActAllow <-> ~ golang_kills (ce_has_execveat env) sc).
Proof. exact c27_golang. Qed.
Print Assumptions C27_golang.

Theorem C27_node : forall env log c k0 p a v k,
  ready c k0 -> child_process env log c k0 = CExec p a v k ->
  seccomp_rule_name c = Some (lit "node") ->
  forall sc,
    (filters_action (k_filter k) sc = ActKill <-> node_kills (ce_has_execveat env) sc) /\
    (filters_action (k_filter k) sc = ActAllow <-> ~ node_kills (ce_has_execveat env) sc).
Proof. exact c27_node. Qed.
Print Assumptions C27_node.

Example C27_cases : does_with "golang" = [ActAllow; ActAllow; ActKill; ActKill; ActAllow; ActKill; ActKill] /\
  does_with "node" = [ActAllow; ActAllow; ActAllow; ActKill; ActAllow; ActKill; ActKill].
Proof. vm_compute. split; reflexivity. Qed.

(** C28 *)
Theorem C28_execve_by_pointer : forall env log c k0 p a v k nm,
  ready c k0 -> child_process env log c k0 = CExec p a v k ->
  seccomp_rule_name c = Some nm -> In nm [lit "c_cpp"; lit "c_cpp_file_io"; lit "general"] ->
  forall sc, sc_native sc = true -> sc_name sc = "execve"%string ->
    (filters_action (k_filter k) sc = ActAllow <-> sc_arg sc 0 = ce_exe_ptr env) /\
    (filters_action (k_filter k) sc = ActKill <-> sc_arg sc 0 <> ce_exe_ptr env).
Proof. exact c28_execve_pointer. Qed.
Print Assumptions C28_execve_by_pointer.

Example C28_case : exists p a v k,
  child_process (sample_child_env None) sample_log (ruled "general") sample_k0 = CExec p a v k /\
  filters_action (k_filter k) (mkSys true "execve" (fun _ => ce_exe_ptr (sample_child_env None))) = ActAllow /\
  filters_action (k_filter k) (mkSys true "execve" (fun _ => ce_exe_ptr (sample_child_env None) + 1)) = ActKill.
Proof. do 4 eexists. split; [vm_compute; reflexivity|]. split; vm_compute; reflexivity. Qed.

(** "Only exe_path can be executed" is false: with [mem] the strings in the
    memory of the program, a permitted execve starts another file. *)
Theorem C28_only_exe_path_refuted : exists env log c k0 p a v k sc (mem : Z -> str),
  ready c k0 /\ child_process env log c k0 = CExec p a v k /\
  seccomp_rule_name c = Some (lit "c_cpp") /\
  sc_name sc = "execve"%string /\ filters_action (k_filter k) sc = ActAllow /\
  mem (sc_arg sc 0%nat) <> exe_path c.
Proof.
  exists (sample_child_env None), sample_log, (ruled "c_cpp"), sample_k0.
  do 4 eexists. exists (mkSys true "execve" (fun a => 140737488355328)), (fun _ => lit "/bin/sh").
  split; [apply ruled_starts; cbn; auto|]. split; [vm_compute; reflexivity|].
  split; [reflexivity|]. split; [reflexivity|]. split; [vm_compute; reflexivity|]. vm_compute. discriminate.
Qed.
Print Assumptions C28_only_exe_path_refuted.
