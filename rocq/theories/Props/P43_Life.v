(** C98: what run() tells about how long the program lived, in every interleaving. *)
From Coq Require Import ZArith Bool List Lia.
From Verif.Base Require Import CInt CStr.
From Verif.Model Require Import Config Runner Timeout.
From Verif.Spec Require Import Verdict RunSpec TimeoutSpec LifeSpec Samples TimeoutSamples.
From Verif.Proofs Require Import LifeProofs.
Import ListNotations.
Open Scope Z_scope.

(** The executions of the examples: the program exits after exactly 2 s, the limit; [d] microseconds later run() sees it. *)
Definition exits_at_the_limit (d : Z) : list op :=
  up_to_wait ++ thread_asleep ++ [Tick 2000000; Exit 0; Tick d; Wait sample_usage; Parent; Parent].
(** The same, seen at once. *)
Definition seen_at_once : list op :=
  up_to_wait ++ thread_asleep ++ [Tick 2000000; Exit 0; Wait sample_usage; Parent; Parent].
(** It exits after 2.001 s. *)
Definition exits_late : list op :=
  up_to_wait ++ thread_asleep ++ [Tick 2001000; Exit 0; Wait sample_usage; Parent; Parent].
(** It exits after 0.12 s, everybody being slow: 0.2 s pass before wait4 is called, and the other acts are late too. *)
Definition exits_among_the_slow : list op :=
  [Tick 3000; Parent; Tick 7000; Parent; Tick 100000; Parent; Tick 20000; Exit 0; Tick 80000; Parent; Killer; Killer; Killer; Killer;
   Tick 5000; Wait sample_usage; Tick 9000; Parent; Tick 1000; Parent].

(** The time that is reported is the life of the program, from the fork to its end, up to a millisecond and to five times the
    delay with which a part that can act does act. *)
Theorem C98_measured : forall P lag m w ops s r o life,
  limits_accepted (p_config P) -> 0 < p_pid P -> 0 <= lag ->
  steady_clock ops -> never_stopped ops -> usages_ok ops -> clocks_fit m w s ->
  prompt P lag (init m w) ops -> exec P (init m w) ops = Some s -> returned s r -> error r = 0 ->
  lives any_end P (init m w) ops o life ->
  life - 1000 < 1000 * real_time r < life + 5 * lag + 1000.
Proof. exact life_measured. Qed.
Print Assumptions C98_measured.

Lemma lives_among_the_slow : lives own_end sample_params (init 7 1000000000) exits_among_the_slow (Exited 0) 120000.
Proof.
  eexists [Tick 3000; Parent; Tick 7000; Parent; Tick 100000; Parent; Tick 20000], (Exit 0), _, _.
  split; [reflexivity|]. split; [constructor|]. split; [vm_compute; reflexivity|]. reflexivity.
Qed.

Ltac calm_ops := intros; let I := fresh in intros I; cbn in I; intuition discriminate.

Example C98_measured_example : exists s r,
  steady_clock exits_among_the_slow /\ never_stopped exits_among_the_slow /\ usages_ok exits_among_the_slow /\
  clocks_fit 7 1000000000 s /\ prompt sample_params 225000 (init 7 1000000000) exits_among_the_slow /\
  exec sample_params (init 7 1000000000) exits_among_the_slow = Some s /\ returned s r /\ error r = 0 /\
  lives own_end sample_params (init 7 1000000000) exits_among_the_slow (Exited 0) 120000 /\ real_time r = 221.
Proof.
  eexists _, _. split; [unfold steady_clock; calm_ops|]. split; [unfold never_stopped; calm_ops|].
  split.
  { intros ru I. cbn in I. assert (ru = sample_usage) as -> by (intuition congruence). vm_compute. intuition discriminate. }
  split; [|split; [|split; [vm_compute; reflexivity|]]].
  - vm_compute. intuition discriminate.
  - apply busy_prompt. vm_compute. intuition discriminate.
  - split; [vm_compute; reflexivity|]. split; [reflexivity|]. split; [exact lives_among_the_slow|vm_compute; reflexivity].
Qed.

(** There is one end and one length of life: a program ends once. *)
Theorem C98_once : forall P m w ops s o o' life life',
  exec P (init m w) ops = Some s ->
  lives any_end P (init m w) ops o life -> lives any_end P (init m w) ops o' life' -> o = o' /\ life = life'.
Proof. exact ends_once. Qed.
Print Assumptions C98_once.
Example C98_once_example : lives any_end sample_params (init 7 1000000000) exits_among_the_slow (Exited 0) 120000.
Proof. apply own_lives. exact lives_among_the_slow. Qed.

(** No program that ends in time is blamed for its time, whatever the order in which the parts act: with its life and five delays
    within the limit it never gets REAL_TIME_LIMIT_EXCEEDED, and if it exits with 0 and keeps the other limits, SUCCESS. *)
Theorem C98_in_time : forall P lag m w ops s r o life,
  limits_accepted (p_config P) -> 0 < p_pid P -> 0 <= lag ->
  steady_clock ops -> never_stopped ops -> usages_ok ops -> clocks_fit m w s ->
  prompt P lag (init m w) ops -> exec P (init m w) ops = Some s -> returned s r -> error r = 0 ->
  lives any_end P (init m w) ops o life ->
  max_real_time (p_config P) = -1 \/ life + 5 * lag <= 1000 * max_real_time (p_config P) ->
  ~ exceeded (max_real_time (p_config P)) (real_time r) /\ verdict r <> 2 /\
  (o = Exited 0 -> ~ exceeded (max_cpu_time (p_config P)) (cpu_time r) ->
     ~ exceeded (max_memory (p_config P)) (memory r) -> verdict r = 0).
Proof. exact in_time. Qed.
Print Assumptions C98_in_time.
Example C98_in_time_example : exists s r,
  prompt sample_params 225000 (init 7 1000000000) exits_among_the_slow /\
  exec sample_params (init 7 1000000000) exits_among_the_slow = Some s /\ returned s r /\ error r = 0 /\
  lives own_end sample_params (init 7 1000000000) exits_among_the_slow (Exited 0) 120000 /\
  120000 + 5 * 225000 <= 1000 * max_real_time (p_config sample_params) /\ cpu_time r = 80 /\ verdict r = 0.
Proof.
  eexists _, _. split; [apply busy_prompt; vm_compute; intuition discriminate|]. split; [vm_compute; reflexivity|].
  split; [vm_compute; reflexivity|]. split; [reflexivity|]. split; [exact lives_among_the_slow|].
  split; [vm_compute; intuition discriminate|]. split; reflexivity.
Qed.

(** Nor is anybody ever sent a signal by the thread of such a call, while it is judged or later. *)
Theorem C98_no_signal : forall P lag m w ops s o life,
  1 <= max_real_time (p_config P) <= 2147482647 -> p_autoreap P = false -> 0 <= lag ->
  args_intact ops -> not_interrupted ops -> calls_succeed ops -> steady_clock ops -> never_stopped ops ->
  prompt P lag (init m w) ops -> exec P (init m w) ops = Some s -> proc_st s = Reaped ->
  lives any_end P (init m w) ops o life -> life + 5 * lag <= 1000 * max_real_time (p_config P) ->
  kills s = [].
Proof. exact in_time_unharmed. Qed.
Print Assumptions C98_no_signal.
Example C98_no_signal_example : exists s,
  args_intact exits_among_the_slow /\ not_interrupted exits_among_the_slow /\ calls_succeed exits_among_the_slow /\
  exec sample_params (init 7 1000000000) exits_among_the_slow = Some s /\ proc_st s = Reaped /\
  (exists r, returned s r) /\ kpc s = KCancelled.
Proof.
  eexists. split; [unfold args_intact; calm_ops|]. split; [unfold not_interrupted; calm_ops|].
  split; [unfold calls_succeed; calm_ops|]. split; [vm_compute; reflexivity|]. split; [reflexivity|].
  split; [eexists; vm_compute; reflexivity|reflexivity].
Qed.

(** And no program that ends too late, by a millisecond or more, is let off, whatever the order and the delays: it is told that a
    time limit is exceeded (unless SIGUSR1 or SIGSEGV ended it, which are read otherwise); it never gets SUCCESS. *)
Theorem C98_too_late : forall P m w ops s r o life,
  limits_accepted (p_config P) -> 0 < p_pid P ->
  steady_clock ops -> never_stopped ops -> usages_ok ops -> clocks_fit m w s ->
  exec P (init m w) ops = Some s -> returned s r -> error r = 0 ->
  lives any_end P (init m w) ops o life ->
  max_real_time (p_config P) <> -1 -> 1000 * max_real_time (p_config P) + 1000 <= life ->
  max_real_time (p_config P) < real_time r /\
  (~ other_signal o -> verdict r = 1 \/ verdict r = 2) /\ verdict r <> 0.
Proof. exact too_late. Qed.
Print Assumptions C98_too_late.
Example C98_too_late_example : exists s r,
  steady_clock exits_late /\ never_stopped exits_late /\ usages_ok exits_late /\ clocks_fit 7 1000000000 s /\
  exec sample_params (init 7 1000000000) exits_late = Some s /\ returned s r /\ error r = 0 /\
  lives own_end sample_params (init 7 1000000000) exits_late (Exited 0) 2001000 /\ ~ other_signal (Exited 0) /\
  1000 * max_real_time (p_config sample_params) + 1000 = 2001000 /\ real_time r = 2001 /\ verdict r = 2 /\ kills s = [].
Proof.
  eexists _, _. split; [unfold steady_clock; calm_ops|]. split; [unfold never_stopped; calm_ops|].
  split.
  { intros ru I. cbn in I. assert (ru = sample_usage) as -> by (intuition congruence). vm_compute. intuition discriminate. }
  split; [|split; [vm_compute; reflexivity|]].
  - vm_compute. intuition discriminate.
  - split; [vm_compute; reflexivity|]. split; [reflexivity|].
    split.
    { eexists (up_to_wait ++ thread_asleep ++ [Tick 2001000]), (Exit 0), _, _.
      split; [reflexivity|]. split; [constructor|]. split; [vm_compute; reflexivity|]. reflexivity. }
    split; [intros (g & core & X & _); discriminate X|]. repeat split.
Qed.

(** Between the two the verdict is a matter of chance: the same program, ending after exactly the limit, with the same use of the
    machine, gets SUCCESS or REAL_TIME_LIMIT_EXCEEDED although nobody is kept waiting for more than a millisecond. *)
Theorem C98_edge_refuted : exists P m w ops ops' s s' r r' o life,
  prompt P 0 (init m w) ops /\ prompt P 1000 (init m w) ops' /\
  exec P (init m w) ops = Some s /\ returned s r /\ exec P (init m w) ops' = Some s' /\ returned s' r' /\
  lives own_end P (init m w) ops o life /\ lives own_end P (init m w) ops' o life /\
  life = 1000 * max_real_time (p_config P) /\
  cpu_time r = cpu_time r' /\ memory r = memory r' /\ verdict r = 0 /\ verdict r' = 2.
Proof.
  exists sample_params, 7, 1000000000, seen_at_once, (exits_at_the_limit 1000). eexists _, _, _, _, (Exited 0), 2000000.
  split; [apply busy_prompt; vm_compute; intuition discriminate|].
  split; [apply busy_prompt; vm_compute; intuition discriminate|].
  split; [vm_compute; reflexivity|]. split; [vm_compute; reflexivity|].
  split; [vm_compute; reflexivity|]. split; [vm_compute; reflexivity|].
  split.
  { eexists (up_to_wait ++ thread_asleep ++ [Tick 2000000]), (Exit 0), _, _.
    split; [reflexivity|]. split; [constructor|]. split; [vm_compute; reflexivity|]. reflexivity. }
  split.
  { eexists (up_to_wait ++ thread_asleep ++ [Tick 2000000]), (Exit 0), _, _.
    split; [reflexivity|]. split; [constructor|]. split; [vm_compute; reflexivity|]. reflexivity. }
  repeat split.
Qed.
Print Assumptions C98_edge_refuted.

(** Without a bound on the delays a program that ends at once can be told that it took too long. *)
Theorem C98_delays_refuted : exists P m w ops s r,
  steady_clock ops /\ never_stopped ops /\ exec P (init m w) ops = Some s /\ returned s r /\ error r = 0 /\
  lives own_end P (init m w) ops (Exited 0) 0 /\ max_real_time (p_config P) = 2000 /\ verdict r = 2.
Proof.
  exists sample_params, 7, 1000000000, (up_to_wait ++ [Exit 0; Tick 2001000; Wait sample_usage; Parent; Parent]).
  eexists _, _. split; [unfold steady_clock; calm_ops|]. split; [unfold never_stopped; calm_ops|].
  split; [vm_compute; reflexivity|]. split; [vm_compute; reflexivity|]. split; [reflexivity|].
  split.
  { eexists up_to_wait, (Exit 0), _, _. split; [reflexivity|]. split; [constructor|]. split; [vm_compute; reflexivity|]. reflexivity. }
  split; reflexivity.
Qed.
Print Assumptions C98_delays_refuted.

(** A program without an end of its own: when run() returns, it was killed and is told that a time limit is exceeded; the real one
    if it kept the limit of CPU time. *)
Theorem C98_endless : forall P m w ops s r,
  1 <= max_real_time (p_config P) <= 2147482647 -> limits_accepted (p_config P) -> 0 < p_pid P ->
  args_intact ops -> not_interrupted ops -> steady_clock ops -> never_stopped ops -> usages_ok ops -> clocks_fit m w s ->
  exec P (init m w) ops = Some s -> returned s r -> error r = 0 -> endless ops ->
  signal r = 9 /\ exit_code r = 0 /\ (verdict r = 1 \/ verdict r = 2) /\
  (~ exceeded (max_cpu_time (p_config P)) (cpu_time r) -> verdict r = 2).
Proof. exact endless_killed. Qed.
Print Assumptions C98_endless.
Example C98_endless_example : exists s r,
  exec sample_params (init 7 1000000000) timed_out = Some s /\ returned s r /\ error r = 0 /\ endless timed_out /\
  ~ exceeded (max_cpu_time (p_config sample_params)) (cpu_time r) /\ signal r = 9 /\ verdict r = 2.
Proof.
  eexists _, _. split; [vm_compute; reflexivity|]. split; [vm_compute; reflexivity|]. split; [reflexivity|].
  split; [intros x o X I; inversion X; subst; cbn in I; intuition discriminate|].
  split; [|split; reflexivity]. vm_compute. intuition discriminate.
Qed.
