(** C86, C87: programs of many processes.  Model/Processes.v has the machine; families,
    what they spent and held are in Spec/ProcSpec.v, in terms of events only. *)
From Coq Require Import ZArith Bool List Arith String.
From Verif.Base Require Import CInt CStr.
From Verif.Model Require Import Config Runner Processes.
From Verif.Model Require Child Seccomp.
From Verif.Spec Require SandboxSpec Samples ChildSamples.
From Verif.Spec Require Import ProcSpec ProcSamples.
From Verif.Proofs Require Import ProcLimit ProcResults ProcFilter ProcMislead ProcChild.
Import ListNotations.
Open Scope list_scope.
Open Scope Z_scope.

(** ** C86: the process limit *)
(** The three steps of the set-up leave what child_process of Model/Child.v leaves. *)
Theorem C86_set_up : forall env log c k0 p a v k m flagged, SandboxSpec.ready c k0 ->
  Child.euid (Child.k_cred k0) = 0 -> Child.ruid (Child.k_cred k0) = 0 ->
  Child.child_process env log c k0 = Child.CExec p a v k ->
  let r := executed (dropped flagged (limited (forked_by_judger c m))) in
  r_user r = Child.ruid (Child.k_cred k) /\
  (forall n, r_limit r = Some n -> Child.k_rlim k Child.RNproc = (n, n)) /\
  (r_limit r = None -> Child.k_rlim k Child.RNproc = Child.k_rlim k0 Child.RNproc) /\
  (forall call arg, In call fork_calls ->
     (let_through c call = true <-> Child.filters_action (Child.k_filter k) (Seccomp.mkSys true call arg) = Seccomp.ActAllow)).
Proof. exact set_up_agrees. Qed.
Print Assumptions C86_set_up.
(** That the sample is [ready] is sample_ready of Props/P02_Child.v. *)
Example sample_set_up : exists p a v k,
  Child.child_process (ChildSamples.sample_child_env None) ChildSamples.sample_log Samples.sample_config ChildSamples.sample_k0
  = Child.CExec p a v k /\ Child.euid (Child.k_cred ChildSamples.sample_k0) = 0 /\ Child.ruid (Child.k_cred ChildSamples.sample_k0) = 0 /\
  Child.ruid (Child.k_cred k) = 65534 /\ Child.k_rlim k Child.RNproc = (10, 10).
Proof. do 4 eexists. split; [vm_compute; reflexivity|]. split; [reflexivity|]. split; [reflexivity|]. split; vm_compute; reflexivity. Qed.
(** Whatever else runs on the machine: a program never has more processes than its limit. *)
Theorem C86_limit : forall evs w x c m, history [] evs = Some w -> In (Starts x c m) evs ->
  max_process_number c <> UNLIMITED -> uid c <> keep_user -> uid c <> 0 ->
  size (family x evs) w <= max_process_number c.
Proof. exact process_limit. Qed.
Print Assumptions C86_limit.
(** A program makes processes only by the calls its profile leaves it. *)
Theorem C86_calls : forall evs w x c m p q call, history [] evs = Some w -> In (Starts x c m) evs ->
  In (Forks p q call) evs -> In p (family x evs) -> In call (can_fork_by (seccomp_rule_name c)).
Proof. exact calls_made. Qed.
Print Assumptions C86_calls.
(** With a user of its own, a program that keeps its limit may fork exactly until it is reached. *)
Theorem C86_own_user : forall evs w x c m p r call, history [] evs = Some w -> In (Starts x c m) evs ->
  max_process_number c <> UNLIMITED -> uid c <> keep_user -> uid c <> 0 ->
  (forall q k, ~ In (Lowers q k) evs) -> exclusive (uid c) (family x evs) w ->
  In p (family x evs) -> get w p = Some r -> at_stage Prog r = true -> In call (can_fork_by (seccomp_rule_name c)) ->
  ((exists w', step w (Forks p (List.length w) call) = Some w') <-> size (family x evs) w < max_process_number c).
Proof. exact alone_fork'. Qed.
Print Assumptions C86_own_user.
(** With a user of its own, a program is never kept from being executed by the limit. *)
Theorem C86_executed : forall evs w x c m r, history [] evs = Some w -> In (Starts x c m) evs ->
  max_process_number c <> UNLIMITED -> uid c <> keep_user ->
  exclusive (uid c) (family x evs) w -> get w x = Some r -> at_stage Dropped r = true ->
  (exists w', step w (Execs x) = Some w') /\ forall status, step w (Refused x status) = None.
Proof. exact alone_exec. Qed.
Print Assumptions C86_executed.
(** If others of the same user are more than the limit, it is not executed ... *)
Theorem C86_shared_user : forall evs w x c m r, history [] evs = Some w -> In (Starts x c m) evs ->
  max_process_number c <> UNLIMITED -> uid c <> keep_user -> uid c <> 0 ->
  get w x = Some r -> at_stage Limited r = true -> max_process_number c < count (uid c) (put w x None) ->
  step w (Drops x false) = None /\
  forall w', step w (Drops x true) = Some w' -> step w' (Execs x) = None.
Proof. exact shared_user. Qed.
Print Assumptions C86_shared_user.
(** ... and the result is a system error. *)
Theorem C86_refused : forall evs w v x c m status s e res, history [] evs = Some v -> In (Starts x c m) evs ->
  seccomp_rule_name c = None -> step v (Refused x status) = Some w -> reported w x s e = Some (Val res) ->
  verdict res = SYSTEM_ERROR.
Proof. exact refused_error. Qed.
Print Assumptions C86_refused.
(** So programs of one user do not have their limits to themselves ... *)
Theorem C86_independent_refuted : exists w, history [] crowded = Some w /\ family 2 crowded = [2%nat] /\
  (forall status, ~ In (Ends 2 status) crowded) /\
  exists res, reported w 2 (mkTv 0 0) (mkTv 0 0) = Some (Val res) /\ verdict res = SYSTEM_ERROR.
Proof. exact crowded_case. Qed.
Print Assumptions C86_independent_refuted.
(** ... and without a user there is no limit at all. *)
Theorem C86_root_refuted : forall k, exists evs w, history [] evs = Some w /\
  In (Starts 0 (cfg 1000 1000000 1 keep_user) 0) evs /\ size (family 0 evs) w = Z.of_nat k + 1.
Proof. exact root_unlimited. Qed.
Print Assumptions C86_root_refuted.

(** ** C37: what is left when the judger has its result *)
(** Under c_cpp and c_cpp_file_io nothing of the program is left ... *)
Theorem C37_confined : forall evs w x c m nm, history [] evs = Some w -> In (Starts x c m) evs ->
  seccomp_rule_name c = Some nm -> In nm [lit "c_cpp"; lit "c_cpp_file_io"] ->
  In (JudgeReaps x) evs -> forall p, In p (family x evs) -> get w p = None.
Proof. exact nothing_left. Qed.
Print Assumptions C37_confined.
(** ... under every other profile any number of processes may run on after a success. *)
Theorem C37_left_refuted : forall rule call k, In call (can_fork_by rule) ->
  exists c evs w res, history [] evs = Some w /\ In (Starts 0 c 0) evs /\ seccomp_rule_name c = rule /\
    uid c = 1000 /\ In (JudgeReaps 0) evs /\ size (family 0 evs) w = Z.of_nat k /\
    (forall p r, get w p = Some r -> at_stage Prog r = true) /\
    exists v, step v (JudgeReaps 0) = Some w /\ reported v 0 (mkTv 0 0) (mkTv 0 0) = Some (Val res) /\ verdict res = SUCCESS.
Proof. exact left_behind. Qed.
Print Assumptions C37_left_refuted.
Example sample_nothing_left : exists w, history [] (confined_life ++ [JudgeReaps 0]) = Some w /\ w = [None].
Proof. eexists. split; vm_compute; reflexivity. Qed.

(** ** C87: time and memory of programs of many processes *)
Theorem C87_cpu_at_most : forall evs w x s e res, history [] evs = Some w ->
  reported w x s e = Some (Val res) -> cpu_time res <= spent [x] evs / 1000.
Proof. exact cpu_at_most. Qed.
Print Assumptions C87_cpu_at_most.
Theorem C87_cpu_exact : forall evs w x s e res, history [] evs = Some w -> all_waited_for x evs w ->
  spent [x] evs / 1000 <= INT_MAX -> reported w x s e = Some (Val res) -> signal res <> SIGUSR1 ->
  cpu_time res = spent [x] evs / 1000.
Proof. exact cpu_exact. Qed.
Print Assumptions C87_cpu_exact.
(** The limit is then a limit for all processes together. *)
Theorem C87_cpu_verdict : forall evs w x c m s e res, history [] evs = Some w -> In (Starts x c m) evs ->
  all_waited_for x evs w -> spent [x] evs / 1000 <= INT_MAX ->
  max_cpu_time c <> UNLIMITED -> max_cpu_time c < spent [x] evs / 1000 ->
  reported w x s e = Some (Val res) -> signal res <> SIGUSR1 -> signal res <> SIGSEGV ->
  verdict res = CPU_TIME_LIMIT_EXCEEDED.
Proof. exact cpu_verdict. Qed.
Print Assumptions C87_cpu_verdict.
(** A program of one process has nobody to wait for. *)
Theorem C87_single : forall evs w x s e res, history [] evs = Some w -> reported w x s e = Some (Val res) ->
  (forall q call, ~ In (Forks x q call) evs) -> all_waited_for x evs w.
Proof. exact single_process. Qed.
Print Assumptions C87_single.
(** Under c_cpp and c_cpp_file_io it cannot be otherwise ... *)
Theorem C87_confined : forall evs w x c m nm, history [] evs = Some w -> In (Starts x c m) evs ->
  seccomp_rule_name c = Some nm -> In nm [lit "c_cpp"; lit "c_cpp_file_io"] ->
  family x evs = [x] /\
  forall s e res, reported w x s e = Some (Val res) -> signal res <> SIGUSR1 -> own_time x evs / 1000 <= INT_MAX ->
    cpu_time res = own_time x evs / 1000 /\ memory res = 1024 * largest [x] evs.
Proof. exact confined_one. Qed.
Print Assumptions C87_confined.
(** ... under general it can, by clone3 only. *)
Theorem C87_general : forall evs w x c m s e res, history [] evs = Some w -> In (Starts x c m) evs ->
  seccomp_rule_name c = Some (lit "general") -> (forall q, ~ In (Forks x q "clone3") evs) ->
  reported w x s e = Some (Val res) -> signal res <> SIGUSR1 -> own_time x evs / 1000 <= INT_MAX ->
  cpu_time res = own_time x evs / 1000 /\ memory res = 1024 * largest [x] evs.
Proof. exact general_one. Qed.
Print Assumptions C87_general.
(** Under every profile that leaves a call, any time can be spent with 0 reported, each process within its own limit L
    and two processes at a time. *)
Theorem C87_cpu_refuted : forall rule call cpu T L, In call (can_fork_by rule) -> 1 <= cpu -> 0 < L ->
  exists c evs w, history [] evs = Some w /\ In (Starts 0 c 0) evs /\ seccomp_rule_name c = rule /\ max_cpu_time c = cpu /\
    max_process_number c = 2 /\ uid c = 1000 /\ T <= spent [0%nat] evs /\ (forall p, own_time p evs <= L) /\
    exists res, reported w 0 (mkTv 0 0) (mkTv 0 0) = Some (Val res) /\ verdict res = SUCCESS /\ cpu_time res = 0.
Proof. exact time_unseen. Qed.
Print Assumptions C87_cpu_refuted.
Theorem C87_memory_at_most : forall evs w x c m s e res, history [] evs = Some w -> In (Starts x c m) evs ->
  reported w x s e = Some (Val res) -> memory res <= 1024 * largest [x] evs.
Proof. exact memory_most. Qed.
Print Assumptions C87_memory_at_most.
Theorem C87_memory_exact : forall evs w x c m s e res, history [] evs = Some w -> In (Starts x c m) evs ->
  all_waited_for x evs w -> reported w x s e = Some (Val res) -> signal res <> SIGUSR1 ->
  memory res = 1024 * largest [x] evs.
Proof. exact memory_is. Qed.
Print Assumptions C87_memory_exact.
(** The judger's own memory is part of it: no program succeeds under a lower limit. *)
Theorem C87_memory_least : forall evs w x c m s e res, history [] evs = Some w -> In (Starts x c m) evs ->
  reported w x s e = Some (Val res) -> signal res <> SIGUSR1 ->
  1024 * m <= memory res /\
  (max_memory c <> UNLIMITED -> max_memory c < 1024 * m -> verdict res <> SUCCESS).
Proof. exact memory_least. Qed.
Print Assumptions C87_memory_least.
(** Processes that exist together may hold any multiple of what is reported. *)
Theorem C87_memory_refuted : forall rule call k m limit, In call (can_fork_by rule) -> 0 <= m -> 1 <= limit -> 1024 * m <= limit <= LONG_MAX ->
  exists c evs w status w', history [] evs = Some w /\ In (Starts 0 c m) evs /\ seccomp_rule_name c = rule /\ max_memory c = limit /\
    resident (family 0 evs) w = (Z.of_nat k + 1) * m /\
    step w (Ends 0 status) = Some w' /\
    exists res, reported w' 0 (mkTv 0 0) (mkTv 0 0) = Some (Val res) /\ verdict res = SUCCESS /\ memory res = 1024 * m.
Proof. exact memory_together. Qed.
Print Assumptions C87_memory_refuted.

Example sample_family : exists w, history [] family_life = Some w /\ all_waited_for 0 family_life w /\
  spent [0%nat] family_life = 1305000 /\ largest [0%nat] family_life = 900 /\ family 0 family_life = [2; 1; 0]%nat /\
  exists res, reported w 0 (mkTv 0 0) (mkTv 0 0) = Some (Val res) /\
    cpu_time res = 1305 /\ memory res = 921600 /\ verdict res = CPU_TIME_LIMIT_EXCEEDED.
Proof. exact family_life_case. Qed.
(** Three processes where three are allowed: the next fork is refused. *)
Example sample_full : exists w r, history [] (firstn 10 family_life) = Some w /\ size (family 0 (firstn 10 family_life)) w = 3 /\ exclusive 1000 (family 0 (firstn 10 family_life)) w /\ get w 1 = Some r /\ at_stage Prog r = true /\ step w (Forks 1 3 "fork") = None.
Proof. exact full_case. Qed.
(** Before setuid, with two processes of the same user and a limit of one. *)
Example sample_shared : exists w r, history [] (firstn 7 crowded) = Some w /\ get w 2 = Some r /\ at_stage Limited r = true /\
  count 1000 (put w 2 None) = 2 /\ max_process_number (r_conf r) = 1.
Proof. exact shared_case. Qed.
(** A program under c_cpp that computes for 0.7 s. *)
Example sample_confined : exists w res, history [] confined_life = Some w /\
  In (Starts 0 (cfgr (Some (lit "c_cpp")) 1000 1000000 3 1000) 100) confined_life /\
  reported w 0 (mkTv 0 0) (mkTv 0 0) = Some (Val res) /\ signal res = 0 /\ cpu_time res = 700 /\ memory res = 921600.
Proof. do 2 eexists. split; [vm_compute; reflexivity|]. split; [left; reflexivity|]. split; [vm_compute; reflexivity|]. repeat split; reflexivity. Qed.
