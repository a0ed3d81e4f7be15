(** C07 (kernel limits), C13-C21, C29: the set-up of the sandbox in the new
    process, for every pattern of system call failures.  [child_process] is the
    model of src/child.c; [ready] is what run() ensures before calling it. *)
From Coq Require Import ZArith Bool List String Lia.
From Verif.Base Require Import CInt CStr.
From Verif.Model Require Import Config Runner Seccomp Child.
From Verif.Spec Require Import Verdict RunSpec Syscalls SandboxSpec Samples ChildSamples.
From Verif.Proofs Require Import RunnerClaims ChildClaims SampleFacts.
Import ListNotations.
Open Scope list_scope.
Open Scope Z_scope.

(** The hypotheses hold for the sample configuration and state. *)
Example sample_ready : ready sample_config sample_k0.
Proof.
  split; [|split; [apply sample_limits|split; [cbn; lia|]]].
  - repeat split; cbn; intros; discriminate.
  - split; [reflexivity|]. split; [reflexivity|].
    intros n o. unfold descriptor. do 4 (destruct n as [|n]; [cbn; intros E; injection E as <-; cbn; lia|]).
    cbn. destruct n; discriminate.
Qed.

Example sample_all_succeed : all_succeed (sample_child_env None).
Proof. split; reflexivity. Qed.

(** C13: the program is executed only after the complete script. *)
Theorem C13_complete_sandbox : forall env log c k0 p a v k,
  ready c k0 -> child_process env log c k0 = CExec p a v k ->
  p = exe_path c /\ a = args c /\ v = Config.env c /\
  flat_map performed (k_trace k) = sandbox_script c.
Proof. exact c13_complete_sandbox. Qed.
Print Assumptions C13_complete_sandbox.

(** C13, not vacuous: the program does start whenever nothing fails. *)
Theorem C13_program_starts : forall env log c k0,
  ready c k0 -> all_succeed env -> known_rule (seccomp_rule_name c) -> euid (k_cred k0) = 0 ->
  exists p a v k, child_process env log c k0 = CExec p a v k.
Proof. exact c13_program_starts. Qed.
Print Assumptions C13_program_starts.

Example C13_sample :
  exists p a v k,
    child_process (sample_child_env None) sample_log sample_config sample_k0 = CExec p a v k /\
    flat_map performed (k_trace k) =
      [SLimit RStack 33554432; SLimit RAs 268435456; SLimit RCpu 2; SLimit RNproc 10;
       SLimit RFsize 10000;
       SOpen (lit "1.in") MRead; SOnto 0; SOpen (lit "1.out") MWrite; SOnto 1;
       SOpen (lit "1.err") MWrite; SOnto 2;
       SGid 65534; SGroups [65534]; SUid 65534; SFilter; SRun].
Proof. do 4 eexists. split; vm_compute; reflexivity. Qed.

(** C14: all ends of a process that did not become the program.  10, 25 and 31
    are SIGUSR1, SIGXFSZ and SIGSYS. *)
Theorem C14_failure_ends : forall env log c k0,
  ready c k0 ->
  match child_process env log c k0 with
  | CExec _ _ _ _ => True
  | CUB => False
  | CKilled s k =>
      (s = 10 /\ ce_usr1_default env = true) \/
      (s = 25 /\ ce_xfsz_default env = true /\ log_over_limit env k) \/
      (s = 31 /\ seccomp_rule_name c <> None /\
       exists sc, error_call env sc /\ filters_action (k_filter k) sc = ActKill)
  | CExit n k => n = 1 /\ ce_usr1_default env = false
  end.
Proof. exact c14_failure_ends. Qed.
Print Assumptions C14_failure_ends.

(** C14: outside the exceptions a failure is a death by SIGUSR1. *)
Theorem C14_sigusr1_guarantee : forall env log c k0,
  ready c k0 -> ce_usr1_default env = true -> log_fits env c k0 ->
  ~ whitelist_rule (seccomp_rule_name c) ->
  (forall k sc, child_process env log c k0 = CKilled 31 k -> In sc (ce_libc_calls env) ->
     filters_action (k_filter k) sc <> ActKill) ->
  (exists p a v k, child_process env log c k0 = CExec p a v k) \/
  (exists k, child_process env log c k0 = CKilled 10 k).
Proof. exact c14_guarantee. Qed.
Print Assumptions C14_sigusr1_guarantee.

(** C14, the exception of the whitelist profiles: once the filter is loaded, a
    failure (of execve) is always a death by SIGSYS, never by SIGUSR1. *)
Theorem C14_whitelist_sigsys : forall env log c k0,
  ready c k0 -> whitelist_rule (seccomp_rule_name c) ->
  match child_process env log c k0 with
  | CKilled s k => k_filter k <> [] -> s = 31
  | CExit n k => k_filter k = []
  | _ => True
  end.
Proof. exact c14_whitelist_sigsys. Qed.
Print Assumptions C14_whitelist_sigsys.

(** The unrestricted claim "a failed set-up ends by SIGUSR1" is false: here
    execve fails under c_cpp and the process dies by SIGSYS. *)
Theorem C14_always_sigusr1_refuted : exists env log c k0 k,
  ready c k0 /\ ce_usr1_default env = true /\ log_fits env c k0 /\
  child_process env log c k0 = CKilled 31 k.
Proof.
  exists (sample_child_env (Some 14%nat)), sample_log, sample_config, sample_k0. eexists.
  split; [apply sample_ready|]. split; [reflexivity|].
  split; [right; right; split; [reflexivity|right; reflexivity]|].
  vm_compute. reflexivity.
Qed.
Print Assumptions C14_always_sigusr1_refuted.

(** A failing first setrlimit, output redirection, setgroups: SIGUSR1. *)
Example C14_sample : forall bad, In bad [0%nat; 7%nat; 8%nat; 12%nat; 13%nat] ->
  exists k, child_process (sample_child_env (Some bad)) sample_log sample_config sample_k0 = CKilled 10 k.
Proof.
  intros bad H. cbn in H. repeat destruct H as [<-|H]; try (eexists; vm_compute; reflexivity). destruct H.
Qed.

(** C15, C07: kernel limits at the start of the program.  A limit that is not
    asked for ([wanted_limit] = None, in particular UNLIMITED) is inherited;
    18446744073709551615 is RLIM_INFINITY. *)
Theorem C15_resource_limits : forall env log c k0 p a v k,
  ready c k0 -> child_process env log c k0 = CExec p a v k ->
  forall r,
    k_rlim k r = match wanted_limit c r with Some z => (z, z) | None => k_rlim k0 r end /\
    (forall z, wanted_limit c r = Some z -> 1 <= z < 18446744073709551615).
Proof. exact c15_limits. Qed.
Print Assumptions C15_resource_limits.

(** The limits of the sample program, and those of one without limits that inherits them. *)
Example C15_sample :
  let limits c := match child_process (sample_child_env None) sample_log c sample_k0 with
                  | CExec _ _ _ k => map (k_rlim k) [RStack; RAs; RCpu; RNproc; RFsize] | _ => [] end in
  let inherited := map (k_rlim sample_k0) [RAs; RCpu; RNproc; RFsize] in
  limits sample_config = [(33554432, 33554432); (268435456, 268435456); (2, 2); (10, 10); (10000, 10000)] /\
  limits (mkConfig (-1) (-1) (-1) 4096 (-1) (-1) 0 [] None None None [] [] [] None 0 0) = (4096, 4096) :: inherited.
Proof. vm_compute. split; reflexivity. Qed.

Theorem C07_unlimited_no_rlimit : forall env log c k0 p a v k,
  ready c k0 -> child_process env log c k0 = CExec p a v k ->
  (max_cpu_time c = -1 -> k_rlim k RCpu = k_rlim k0 RCpu) /\
  (max_memory c = -1 -> k_rlim k RAs = k_rlim k0 RAs) /\
  (max_process_number c = -1 -> k_rlim k RNproc = k_rlim k0 RNproc) /\
  (max_output_size c = -1 -> k_rlim k RFsize = k_rlim k0 RFsize).
Proof.
  intros env log c k0 p a v k R E. pose proof (c15_limits env log c k0 p a v k R E) as H.
  repeat split; intros U; [destruct (H RCpu) as [X _]|destruct (H RAs) as [X _]
    |destruct (H RNproc) as [X _]|destruct (H RFsize) as [X _]]; rewrite X; cbn -[Z.mul]; rewrite U; reflexivity.
Qed.
Print Assumptions C07_unlimited_no_rlimit.

(** C16 *)
Theorem C16_cpu_limit_granularity : forall c v,
  wanted_limit c RCpu = Some v -> max_cpu_time c < 1000 * v <= max_cpu_time c + 1000.
Proof. exact c16_granularity. Qed.
Print Assumptions C16_cpu_limit_granularity.

Theorem C16_kernel_limit_is_tle : forall c e o ru v r ef,
  judged c e o ru -> env_fits e -> wanted_limit c RCpu = Some v ->
  us (ru_utime ru) >= 1000000 * v ->
  (forall core, o <> Killed 10 core) -> (forall core, o <> Killed 11 core) ->
  run c e = Returns (Val r) ef -> verdict r = 1.
Proof. exact c16_kernel_limit_is_tle. Qed.
Print Assumptions C16_kernel_limit_is_tle.

Example C16_sample :
  exists r ef, run sample_config (sample_env (wait_status (Killed 9 false)) (mkRu (mkTv 2 0) (mkTv 0 0) 10))
               = Returns (Val r) ef /\ verdict r = 1.
Proof. do 2 eexists. split; vm_compute; reflexivity. Qed.

(** C17: the rounding of max_cpu_time to seconds; 2147482647 = INT_MAX - 1000. *)
Theorem C17_no_overflow : forall env log c k0,
  config_typed c -> limits_accepted c -> forked k0 -> max_cpu_time c <= 2147482647 ->
  child_process env log c k0 <> CUB.
Proof. exact c17_child_no_overflow. Qed.
Print Assumptions C17_no_overflow.

Theorem C17_overflow_beyond : forall env log c k0,
  forked k0 -> max_cpu_time c > 2147482647 -> (forall n, ce_ok env n = true) ->
  child_process env log c k0 = CUB.
Proof. exact c17_child_overflow. Qed.
Print Assumptions C17_overflow_beyond.

(** The largest limit that does not overflow, and the next one. *)
Example C17_cases :
  let ends cpu := child_process (sample_child_env None) sample_log (mkConfig cpu (-1) (-1) 1 (-1) (-1) 0 [] None None None [] [] [] None 0 0) sample_k0 in
  (exists p a v k, ends 2147482647 = CExec p a v k /\ k_rlim k RCpu = (2147483, 2147483)) /\ ends 2147482648 = CUB.
Proof. cbv zeta. split; [do 4 eexists; split; vm_compute; reflexivity|vm_compute; reflexivity]. Qed.

Theorem C17_accepted_limits_refuted : exists env log c k0,
  config_typed c /\ limits_accepted c /\ forked k0 /\ child_process env log c k0 = CUB.
Proof.
  exists (sample_child_env None), sample_log,
    (mkConfig 2147483647 (-1) (-1) 1 (-1) (-1) 0 [] None None None [] [] [] None 0 0), sample_k0.
  split; [repeat split; cbn; intros; discriminate|].
  split; [repeat split; cbn; unfold limit_ok; lia|].
  split; [apply sample_ready|]. vm_compute. reflexivity.
Qed.
Print Assumptions C17_accepted_limits_refuted.

(** C18 *)
Theorem C18_standard_streams : forall env log c k0 p a v k,
  ready c k0 -> child_process env log c k0 = CExec p a v k ->
  (forall q, input_path c = Some q -> redirected k0 k 0 q MRead) /\
  (forall q, output_path c = Some q -> redirected k0 k 1 q MWrite) /\
  (forall q, error_path c = Some q -> redirected k0 k 2 q MWrite) /\
  (forall q1 q2, output_path c = Some q1 -> error_path c = Some q2 ->
     forall o1 o2, descriptor k 1 = Some o1 -> descriptor k 2 = Some o2 ->
     (of_id o1 = of_id o2 <-> q1 = q2)).
Proof. exact c18_standard_streams. Qed.
Print Assumptions C18_standard_streams.

(** The judger itself started with 0 and 2 closed; output and error the same path. *)
Example C18_sample :
  exists p a v k,
    child_process (sample_child_env None) None
      (mkConfig (-1) (-1) (-1) 1 (-1) (-1) 0 [] (Some (lit "i")) (Some (lit "o")) (Some (lit "o")) [] [] [] None 0 0)
      (mkK [None; Some (mkOf 0 (lit "x") MOther)] 1 (fun _ => (0, 0)) (mkCred 0 0 0 0 0 0 []) [] 0 [])
    = CExec p a v k /\
    k_fds k = [Some (mkOf 1 (lit "i") MRead); Some (mkOf 2 (lit "o") MWrite); Some (mkOf 2 (lit "o") MWrite)].
Proof. do 4 eexists. split; vm_compute; reflexivity. Qed.

(** C19: exactly which other descriptors the program gets. *)
Theorem C19_inherited_descriptors : forall env log c k0 p a v k,
  ready c k0 -> child_process env log c k0 = CExec p a v k ->
  (forall n o, (3 <= n)%nat -> descriptor k0 n = Some o -> descriptor k n = Some o) /\
  (forall n o, descriptor k n = Some o ->
     descriptor k0 n = Some o \/
     ((k_next k0 <= of_id o)%nat /\
      ((input_path c = Some (of_path o) /\ of_mode o = MRead) \/
       ((output_path c = Some (of_path o) \/ error_path c = Some (of_path o)) /\ of_mode o = MWrite)))).
Proof. exact c19_inherited. Qed.
Print Assumptions C19_inherited_descriptors.

(** The sample program: its three streams, the log of the judger, and the streams again under the numbers they were opened with. *)
Example C19_sample : exists p a v k,
  child_process (sample_child_env None) sample_log sample_config sample_k0 = CExec p a v k /\
  map (fun n => option_map (fun o => (of_path o, of_mode o)) (descriptor k n)) [0; 1; 2; 3; 4; 5; 6; 7]%nat =
  [Some (lit "1.in", MRead); Some (lit "1.out", MWrite); Some (lit "1.err", MWrite); Some (lit "judger.log", MAppend);
   Some (lit "1.in", MRead); Some (lit "1.out", MWrite); Some (lit "1.err", MWrite); None].
Proof. do 4 eexists. split; vm_compute; reflexivity. Qed.

(** The claim "the program sees only descriptors 0, 1 and 2" is false: the log
    file is writable on descriptor 3. *)
Theorem C19_only_standard_refuted : exists env log c k0 p a v k,
  ready c k0 /\ child_process env log c k0 = CExec p a v k /\
  descriptor k 3 = Some (mkOf 1 (lit "judger.log") MAppend).
Proof.
  exists (sample_child_env None), sample_log, sample_config, sample_k0. do 4 eexists.
  split; [apply sample_ready|]. split; vm_compute; reflexivity.
Qed.
Print Assumptions C19_only_standard_refuted.

(** C20 *)
Theorem C20_privilege_drop : forall env log c k0 p a v k,
  ready c k0 -> euid (k_cred k0) = 0 -> child_process env log c k0 = CExec p a v k ->
  dropped c k /\
  (gid c = keep_id -> rgid (k_cred k) = rgid (k_cred k0) /\ egid (k_cred k) = egid (k_cred k0) /\
     sgid (k_cred k) = sgid (k_cred k0) /\ groups (k_cred k) = groups (k_cred k0)) /\
  (uid c = keep_id -> ruid (k_cred k) = ruid (k_cred k0) /\ euid (k_cred k) = euid (k_cred k0) /\
     suid (k_cred k) = suid (k_cred k0)).
Proof. exact c20_privileges. Qed.
Print Assumptions C20_privilege_drop.

(** uid = (uid_t)-1 leaves the program running as root. *)
Theorem C20_program_is_never_root_refuted : exists env log c k0 p a v k,
  ready c k0 /\ uid c = 4294967295 /\ child_process env log c k0 = CExec p a v k /\
  euid (k_cred k) = 0.
Proof.
  exists (sample_child_env None), sample_log,
    (mkConfig (-1) (-1) (-1) 1 (-1) (-1) 0 [] None None None [] [] [] None 4294967295 65534), sample_k0.
  do 4 eexists. split; [|split; [reflexivity|split; vm_compute; reflexivity]].
  split; [repeat split; cbn; intros; discriminate|].
  split; [repeat split; cbn; unfold limit_ok; lia|].
  split; [cbn; lia|apply sample_ready].
Qed.
Print Assumptions C20_program_is_never_root_refuted.

Example C20_sample :
  exists p a v k,
    child_process (sample_child_env None) sample_log sample_config sample_k0 = CExec p a v k /\
    k_cred k = mkCred 65534 65534 65534 65534 65534 65534 [65534].
Proof. do 4 eexists. split; vm_compute; reflexivity. Qed.

(** C21 (CUB is what closing a stream twice leads to). *)
Theorem C21_closed_at_most_once : forall env log c k0,
  ready c k0 ->
  child_process env log c k0 <> CUB /\
  (forall k, dead_state (child_process env log c k0) = Some k ->
     NoDup (closed (k_trace k)) /\ incl (closed (k_trace k)) (opened (k_trace k))) /\
  (forall p a v k, child_process env log c k0 = CExec p a v k -> closed (k_trace k) = []).
Proof. exact c21_closed_once. Qed.
Print Assumptions C21_closed_at_most_once.

(** setuid fails after all three redirections, two of which share a stream. *)
Example C21_sample :
  exists k, dead_state
    (child_process (sample_child_env (Some 8%nat)) sample_log
      (mkConfig (-1) (-1) (-1) 1 (-1) (-1) 0 [] (Some (lit "i")) (Some (lit "o")) (Some (lit "o")) [] [] [] None 5 5)
      sample_k0) = Some k /\ closed (k_trace k) = [2%nat; 3%nat].
Proof. eexists. split; vm_compute; reflexivity. Qed.

(** C29: the only effect of a non-zero memory_limit_check_only is that the
    address space limit is not installed. *)
Theorem C29_only_address_space : forall c z,
  z <> 0 ->
  sandbox_script (with_check_only c z)
    = List.filter (fun s => match s with SLimit RAs _ => false | _ => true end) (sandbox_script c) /\
  (forall e, run (with_check_only c z) e = run c e).
Proof. intros c z Z0. split; [apply c29_script; assumption|reflexivity]. Qed.
Print Assumptions C29_only_address_space.

Theorem C29_limits : forall env log c z k0 p a v k,
  z <> 0 -> ready (with_check_only c z) k0 ->
  child_process env log (with_check_only c z) k0 = CExec p a v k ->
  k_rlim k RAs = k_rlim k0 RAs /\
  (forall r, r <> RAs ->
     k_rlim k r = match wanted_limit c r with Some x => (x, x) | None => k_rlim k0 r end).
Proof.
  intros env log c z k0 p a v k Z0 R E.
  pose proof (c15_limits _ _ _ _ _ _ _ _ R E) as H. split.
  - destruct (H RAs) as [X _]. rewrite X, c29_limits by assumption. reflexivity.
  - intros r N. destruct (H r) as [X _]. rewrite X, c29_limits by assumption.
    destruct r; try reflexivity. congruence.
Qed.
Print Assumptions C29_limits.
