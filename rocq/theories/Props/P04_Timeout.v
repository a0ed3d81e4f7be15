(** C12, C17, C30-C37: every interleaving of run(), its timeout thread, the
    program, the kernel and the clocks. *)
From Coq Require Import ZArith Bool List Lia.
From Verif.Base Require Import CInt CStr.
From Verif.Model Require Import Config Runner Timeout.
From Verif.Spec Require Import Verdict RunSpec TimeoutSpec Samples TimeoutSamples.
From Verif.Proofs Require Import TimeoutProofs TimeoutReport TimeoutTimed TimeoutClaims.
Import ListNotations.
Open Scope Z_scope.

(** The hypotheses of the theorems below are met by the execution in which an
    endless program is killed, and by one in which it exits in time. *)
Example sample_executions :
  (1 <= max_real_time (p_config sample_params) <= 2147482647 /\ 0 < p_pid sample_params) /\
  Forall (fun ops => args_intact ops /\ not_interrupted ops /\ calls_succeed ops /\
                     steady_clock ops /\ never_stopped ops /\ usages_ok ops)
         [timed_out; finished].
Proof.
  split; [vm_compute; intuition discriminate|].
  assert (usage_ok sample_usage) as U by (vm_compute; intuition discriminate).
  unfold args_intact, not_interrupted, calls_succeed, steady_clock, never_stopped, usages_ok.
  apply Forall_cons; [|apply Forall_cons; [|apply Forall_nil]]; cbn;
    (split; [|split; [|split; [|split; [|split]]]]); try (intros; solve [intuition discriminate]).
  all: intros ru I; assert (ru = sample_usage) as -> by (intuition congruence); exact U.
Qed.

Example timed_out_result : exists s r,
  exec sample_params (init 7 1000000000) timed_out = Some s /\ returned s r /\ clocks_fit 7 1000000000 s /\
  kills s = [mkKill ByKiller 3000007 TJudged] /\ r = mkResult 80 3000 1536000 9 0 0 2 /\ proc_st s = Reaped.
Proof. eexists _, _. split; [vm_compute; reflexivity|]. vm_compute. intuition discriminate. Qed.

Example finished_result : exists s r,
  exec sample_params (init 7 1000000000) finished = Some s /\ returned s r /\
  kills s = [] /\ r = mkResult 80 120 1536000 0 0 0 0 /\ proc_st s = Reaped.
Proof. eexists _, _. split; [vm_compute; reflexivity|]. vm_compute. intuition discriminate. Qed.

(** C01, C63: what an execution of the threads returns is what [run] returns for
    the values its system calls had in that execution. *)
Theorem C01_every_execution : forall P m w ops s r,
  limits_accepted (p_config P) -> 0 < p_pid P ->
  steady_clock ops -> usages_ok ops -> clocks_fit m w s ->
  exec P (init m w) ops = Some s -> returned s r -> error r = 0 ->
  exists e o ru ef, judged (p_config P) e o ru /\ run (p_config P) e = Returns (Val r) ef /\
    0 <= elapsed_us e <= mono s - m.
Proof. exact every_execution. Qed.
Print Assumptions C01_every_execution.

(** C12 *)
Theorem C12_interleaved : forall P m w ops s r,
  1 <= max_real_time (p_config P) <= 2147482647 ->
  args_intact ops -> exec P (init m w) ops = Some s -> returned s r ->
  (error r = FORK_FAILED -> proc_st s = NotForked /\ kills s = []) /\
  (error r = PTHREAD_FAILED \/ error r = WAIT_FAILED ->
     (exists k, In k (kills s) /\ kl_who k = ByParent) /\
     (proc_st s <> Reaped -> forall k, In k (kills s) -> kl_target k = TJudged) /\
     (alive s = true -> kill_pending s = true)).
Proof. exact c12_interleaved. Qed.
Print Assumptions C12_interleaved.

Example C12_failures_happen :
  (exists s, exec sample_params (init 0 0) create_fails = Some s /\
     returned s (mkResult 0 0 0 0 0 PTHREAD_FAILED 0) /\ alive s = true) /\
  (exists s, exec sample_params (init 0 0) wait_fails = Some s /\
     returned s (mkResult 0 0 0 0 0 WAIT_FAILED 0) /\ alive s = true) /\
  (exists s, exec sample_params (init 0 0) [Parent; ParentFail] = Some s /\
     returned s (mkResult 0 0 0 0 0 FORK_FAILED 0)).
Proof. split; [|split]; eexists; (split; [vm_compute; reflexivity|]); try split; reflexivity. Qed.

(** C17: the rounding of max_real_time to seconds. *)
Theorem C17_timeout_no_overflow : forall P m w ops s,
  1 <= max_real_time (p_config P) <= 2147482647 ->
  args_intact ops -> exec P (init m w) ops = Some s -> ~ In UbOverflow (ubs s).
Proof. exact c17_timeout. Qed.
Print Assumptions C17_timeout_no_overflow.

Theorem C17_timeout_refuted : exists P ops s,
  limits_accepted (p_config P) /\ exec P (init 0 0) ops = Some s /\ In UbOverflow (ubs s).
Proof.
  exists (mkP (mkConfig 1 2147482648 1 1 1 1 0 [] None None None [] [] [] None 0 0) 4242 false),
    (up_to_wait ++ thread_asleep).
  eexists. split; [repeat split; cbn; unfold limit_ok; lia|]. split; [vm_compute; reflexivity|].
  vm_compute. intuition.
Qed.
Print Assumptions C17_timeout_refuted.

(** C30 *)
Theorem C30_never_early : forall P m w ops s k,
  1 <= max_real_time (p_config P) <= 2147482647 ->
  args_intact ops -> not_interrupted ops -> exec P (init m w) ops = Some s ->
  In k (kills s) -> kl_who k = ByKiller ->
  kl_time k > t_fork s + 1000 * max_real_time (p_config P).
Proof. exact (fun P m w ops s k T => never_early P T m w ops s k). Qed.
Print Assumptions C30_never_early.

Theorem C30_unlimited_never : forall P m w ops s k,
  max_real_time (p_config P) = UNLIMITED -> exec P (init m w) ops = Some s ->
  In k (kills s) -> kl_who k = ByParent.
Proof. exact c30_unlimited. Qed.
Print Assumptions C30_unlimited_never.

(** The endless program of [timed_out] is killed after 3 s, more than its 2 s; without a limit there is no thread. *)
Example C30_cases :
  (exists s k, exec sample_params (init 7 1000000000) timed_out = Some s /\ kills s = [k] /\ kl_who k = ByKiller /\
     kl_time k = t_fork s + 3000000) /\
  (exists s, exec (mkP (mkConfig 1 (-1) 1 1 1 1 0 [] None None None [] [] [] None 0 0) 4242 false) (init 7 0)
               [Parent; Parent; Tick 99000000000; ParentFail; Parent] = Some s /\ map kl_who (kills s) = [ByParent]).
Proof.
  split.
  - eexists. exists (mkKill ByKiller 3000007 TJudged). split; [vm_compute; reflexivity|]. repeat split.
  - eexists. split; [vm_compute; reflexivity|reflexivity].
Qed.

(** C31: [prompt lag]: nobody who can act waits longer than [lag] microseconds. *)
Theorem C31_returns_in_time : forall P lag m w ops s,
  1 <= max_real_time (p_config P) <= 2147482647 -> p_autoreap P = false -> 0 <= lag ->
  args_intact ops -> not_interrupted ops -> calls_succeed ops ->
  prompt P lag (init m w) ops -> exec P (init m w) ops = Some s ->
  (exists r, ppc s = PReturned r) \/
  mono s <= m + 1000 * max_real_time (p_config P) + 1000000 + 15 * lag.
Proof. exact c31_bounded. Qed.
Print Assumptions C31_returns_in_time.

(** Once the thread has fired, a program that is still there has SIGKILL pending. *)
Theorem C31_killed : forall P m w ops s,
  1 <= max_real_time (p_config P) <= 2147482647 ->
  args_intact ops -> exec P (init m w) ops = Some s ->
  kpc s = KReturn \/ kpc s = KDone -> alive s = true -> kill_pending s = true.
Proof. exact c31_killed. Qed.
Print Assumptions C31_killed.

(** The killed endless program with no lag at all, and the states in which the
    parties can or cannot act. *)
Example C31_prompt_execution :
  prompt sample_params 0 (init 7 1000000000) timed_out.
Proof. apply ticks_idle_prompt; [lia|vm_compute; reflexivity]. Qed.

Example C31_not_prompt : ~ prompt sample_params 1000 (init 7 0) [Tick 2000].
Proof.
  intros H. specialize (H [] [Tick 2000] [] (init 7 0) (init 2007 2000) AParent eq_refl eq_refl eq_refl).
  cbn in H. enough (2007 - 7 <= 1000) by lia. apply H.
  - intros m1 m2 s E X. exists Parent. split; [exact I|]. repeat split; try discriminate.
    assert (exists t, s = init (7 + t) t) as [t ->].
    { destruct m1 as [|o m1]; [injection X as <-; exists 0; reflexivity|].
      injection E as <- E. destruct m1; [|discriminate]. cbn in X. injection X as <-. exists 2000. reflexivity. }
    cbn. discriminate.
  - intros o [<-|[]]. exact (fun x => x).
Qed.

(** C32 *)
Theorem C32_timeout_is_reported : forall P m w ops s r k,
  1 <= max_real_time (p_config P) <= 2147482647 -> limits_accepted (p_config P) -> 0 < p_pid P ->
  args_intact ops -> not_interrupted ops -> steady_clock ops -> usages_ok ops -> clocks_fit m w s ->
  exec P (init m w) ops = Some s -> returned s r ->
  In k (kills s) -> kl_who k = ByKiller -> kl_target k = TJudged -> signal r = 9 ->
  verdict r = 1 \/ verdict r = 2.
Proof. exact timeout_is_reported. Qed.
Print Assumptions C32_timeout_is_reported.

Example C32_case : exists s r k,
  exec sample_params (init 7 1000000000) timed_out = Some s /\ returned s r /\ clocks_fit 7 1000000000 s /\
  In k (kills s) /\ kl_who k = ByKiller /\ kl_target k = TJudged /\ signal r = 9 /\ verdict r = 2.
Proof.
  destruct timed_out_result as (s & r & X & R & C & K & -> & _). exists s. eexists. eexists.
  split; [exact X|]. split; [exact R|]. split; [exact C|]. rewrite K. split; [left; reflexivity|]. repeat split.
Qed.

(** Not if the wall clock is set back meanwhile: RUNTIME_ERROR is reported. *)
Theorem C32_clock_refuted : exists P m w ops s r,
  args_intact ops /\ not_interrupted ops /\ exec P (init m w) ops = Some s /\ returned s r /\
  kills s = [mkKill ByKiller (m + 3000000) TJudged] /\ signal r = 9 /\ verdict r = 4.
Proof.
  exists sample_params, 0, 1000000000,
    (up_to_wait ++ thread_asleep ++
     [Tick 3000000; SetClock (-1500000); Killer; Killer; Deliver; Wait sample_usage; Parent; Parent]).
  eexists _, _. split; [intros z I; cbn in I; intuition discriminate|].
  split; [intros I; cbn in I; intuition discriminate|].
  split; [vm_compute; reflexivity|]. vm_compute. intuition discriminate.
Qed.
Print Assumptions C32_clock_refuted.

(** C33: until the program has been reaped; and never another number than its pid. *)
Theorem C33_until_reaped : forall P m w ops s k,
  1 <= max_real_time (p_config P) <= 2147482647 ->
  args_intact ops -> exec P (init m w) ops = Some s -> In k (kills s) ->
  (forall pid, kl_target k <> TPid pid) /\
  (proc_st s <> Reaped -> kl_target k = TJudged).
Proof. exact c33_before_reap. Qed.
Print Assumptions C33_until_reaped.

(** The thread cancelled no later than max_real_time after the start: no kill at all. *)
Theorem C33_finished_in_time : forall P m w pre post s1 s,
  1 <= max_real_time (p_config P) <= 2147482647 ->
  args_intact (pre ++ Parent :: post) -> not_interrupted (pre ++ Parent :: post) ->
  exec P (init m w) pre = Some s1 ->
  (exists w e st ru, ppc s1 = PCancel w e st ru) ->
  mono s1 <= t_fork s1 + 1000 * max_real_time (p_config P) ->
  exec P (init m w) (pre ++ Parent :: post) = Some s -> kills s = [].
Proof. exact (fun P m w pre post s1 s T => cancelled_in_time P T m w pre post s1 s). Qed.
Print Assumptions C33_finished_in_time.

Example C33_finished_case :
  exists s1, exec sample_params (init 0 0) (removelast (removelast finished)) = Some s1 /\
    (exists w e st ru, ppc s1 = PCancel w e st ru) /\
    mono s1 <= t_fork s1 + 1000 * max_real_time (p_config sample_params).
Proof.
  eexists. split; [vm_compute; reflexivity|]. split; [repeat eexists|]. vm_compute. discriminate.
Qed.

Theorem C33_refuted : exists P ops s r k,
  args_intact ops /\ not_interrupted ops /\ calls_succeed ops /\ p_autoreap P = false /\
  exec P (init 0 0) ops = Some s /\ returned s r /\ error r = 0 /\
  In k (kills s) /\ kl_target k = TStranger.
Proof.
  exists sample_params, late_kill. eexists _, _, (mkKill ByKiller 3000000 TStranger).
  split; [intros z I; cbn in I; intuition discriminate|].
  split; [intros I; cbn in I; intuition discriminate|].
  split; [intros I; cbn in I; intuition discriminate|]. split; [reflexivity|].
  split; [vm_compute; reflexivity|]. vm_compute. intuition.
Qed.
Print Assumptions C33_refuted.

(** C34 *)
Theorem C34_refuted :
  (exists P s, exec P (init 0 0) late_thread = Some s /\ In UbStaleArgs (ubs s)) /\
  (exists P s, exec P (init 0 0) late_thread_junk = Some s /\
     kills s = [mkKill ByKiller 3000000 (TPid (-1))]).
Proof.
  split; exists sample_params; eexists; (split; [vm_compute; reflexivity|]).
  - vm_compute. auto.
  - reflexivity.
Qed.
Print Assumptions C34_refuted.

Theorem C34_args_read_first : forall P m w ops s,
  args_read_first P (init m w) ops -> exec P (init m w) ops = Some s -> ~ In UbStaleArgs (ubs s).
Proof. exact c34_read_first. Qed.
Print Assumptions C34_args_read_first.

Example C34_early_thread : exists s,
  exec sample_params (init 0 0) early_thread = Some s /\ ubs s = [] /\
  args_read_first sample_params (init 0 0) early_thread.
Proof.
  eexists. split; [vm_compute; reflexivity|]. split; [reflexivity|].
  intros pre post s1 w E X B.
  assert (pre = firstn (length pre) early_thread) as F
    by (rewrite E, firstn_app, Nat.sub_diag, firstn_all; cbn; symmetry; apply app_nil_r).
  assert (length pre < 8)%nat as L
    by (apply (f_equal (@length op)) in E; rewrite app_length in E; cbn in E; lia).
  assert (nth_error early_thread (length pre) = Some Parent) as G
    by (rewrite E, nth_error_app2, Nat.sub_diag by lia; reflexivity).
  clear E. revert F L X G. generalize (length pre). intros n -> L X G.
  do 8 (destruct n as [|n];
    [vm_compute in X; injection X as <-;
     first [discriminate B | discriminate G | split; [|intros ?]; discriminate]|]).
  exfalso; lia.
Qed.

(** C35: only ever after the thread has fired... *)
Theorem C35_only_after_firing : forall P m w ops s,
  1 <= max_real_time (p_config P) <= 2147482647 ->
  args_intact ops -> exec P (init m w) ops = Some s -> In UbStaleThread (ubs s) ->
  exists k, In k (kills s) /\ kl_who k = ByKiller.
Proof. exact c35_fired. Qed.
Print Assumptions C35_only_after_firing.

(** ...but then it happens. *)
Theorem C35_refuted : exists P ops s,
  args_intact ops /\ not_interrupted ops /\ calls_succeed ops /\ p_autoreap P = false /\
  exec P (init 0 0) ops = Some s /\ In UbStaleThread (ubs s).
Proof.
  exists sample_params,
    (up_to_wait ++ thread_asleep ++
     [Tick 3000000; Killer; Killer; Killer; Deliver; Wait sample_usage; Parent; Parent]).
  eexists. split; [intros z I; cbn in I; intuition discriminate|].
  split; [intros I; cbn in I; intuition discriminate|].
  split; [intros I; cbn in I; intuition discriminate|]. split; [reflexivity|].
  split; [vm_compute; reflexivity|]. vm_compute. auto.
Qed.
Print Assumptions C35_refuted.

(** C36 *)
Theorem C36_unless_stopped : forall P m w ops s r,
  never_stopped ops -> exec P (init m w) ops = Some s -> returned s r -> error r = 0 ->
  proc_st s = Reaped.
Proof. exact c36_reaped. Qed.
Print Assumptions C36_unless_stopped.

Example C36_case : never_stopped finished /\ exists s r,
  exec sample_params (init 7 1000000000) finished = Some s /\ returned s r /\ error r = 0 /\ proc_st s = Reaped.
Proof.
  split; [destruct sample_executions as (_ & F); inversion F as [|? ? _ F']; inversion F' as [|? ? A _]; apply A|].
  destruct finished_result as (s & r & X & R & _ & -> & P). exists s. eexists. split; [exact X|]. split; [exact R|]. split; [reflexivity|exact P].
Qed.

Theorem C36_refuted : exists P ops s r,
  exec P (init 0 0) ops = Some s /\ returned s r /\ error r = 0 /\
  alive s = true /\ kill_pending s = false /\ kpc s = KCancelled /\
  verdict r = 4 /\ exit_code r = 19.
Proof. exists sample_params, stopped. eexists _, _. vm_compute. intuition. Qed.
Print Assumptions C36_refuted.

(** C37 *)
Theorem C37_unless_spawned : forall P m w ops s,
  ~ In Spawn ops -> exec P (init m w) ops = Some s -> kids s = O.
Proof. exact c37_no_spawn. Qed.
Print Assumptions C37_unless_spawned.

Example C37_case : ~ In Spawn timed_out /\ In Spawn orphan /\
  exists s, exec sample_params (init 7 1000000000) timed_out = Some s /\ kids s = O.
Proof. split; [cbn; intuition discriminate|]. split; [cbn; tauto|]. eexists. split; vm_compute; reflexivity. Qed.

Theorem C37_refuted : exists P ops s r,
  exec P (init 0 0) ops = Some s /\ returned s r /\ error r = 0 /\ verdict r = 0 /\
  proc_st s = Reaped /\ kids s = 1%nat.
Proof. exists sample_params, orphan. eexists _, _. vm_compute. intuition. Qed.
Print Assumptions C37_refuted.
