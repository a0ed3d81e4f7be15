(** C99: many calls of run() in one process. *)
From Coq Require Import ZArith Bool List Lia.
From Verif.Base Require Import CInt CStr.
From Verif.Model Require Import Config Runner Timeout Calls.
From Verif.Spec Require Import Verdict RunSpec TimeoutSpec LifeSpec CallsSpec Samples TimeoutSamples.
From Verif.Proofs Require Import SampleFacts LifeProofs CallsProofs.
Import ListNotations.
Open Scope Z_scope.

(** Two calls side by side, both with a limit of 2 s.  The first program exits after 0.12 s; its number is given to that of a third
    call.  All three exit with 0. *)
Definition other_params : tparams := mkP sample_config 4243 false.
Definition all_in (i : nat) (ops : list op) : list gop := map (Do i) ops.
Definition three_calls : list gop :=
  [Enter sample_params; Do 0 Parent; Enter other_params; Do 1 Parent; Do 1 Parent] ++ all_in 0 [Parent; Parent; Parent] ++
  all_in 1 [Parent; Parent] ++ all_in 0 thread_asleep ++ all_in 1 thread_asleep ++
  [Pass 120000; Do 0 (Exit 0); Do 0 (Wait sample_usage); Do 0 Parent; Do 0 Parent; Enter sample_params] ++
  all_in 2 (up_to_wait ++ thread_asleep) ++
  [Pass 5000; Do 1 (Exit 0); Pass 10; Do 1 (Wait sample_usage); Do 1 Parent; Do 1 Parent;
   Pass 2994990; Do 2 Killer; Pass 20; Do 2 Killer; Do 2 Deliver; Do 2 (Wait sample_usage); Do 2 Parent; Do 2 Parent].

(** Each call is an execution by itself: its result and its signals are those of a single call in which the same things happen to
    its program, so that all statements about single calls hold of it; and all calls have the same clocks. *)
Theorem C99_each_call : forall m w ops g j c,
  gexec (before_calls m w) ops = Some g -> nth_error (g_calls g) j = Some c ->
  exec (c_par c) (began c) (events c) = Some (c_st c) /\ mono (c_st c) = g_mono g /\ wall (c_st c) = g_wall g.
Proof. exact (fun m w ops g j c H N => conj (each_call m w ops g H j c N) (clock_call m w ops g H j c N)). Qed.
Print Assumptions C99_each_call.
Example C99_each_call_example : exists g c0 c1 c2 r0 r1 r2,
  gexec (before_calls 7 1000000000) three_calls = Some g /\ g_calls g = [c0; c1; c2] /\
  returned (c_st c0) r0 /\ returned (c_st c1) r1 /\ returned (c_st c2) r2 /\
  map verdict [r0; r1; r2] = [0; 0; 2] /\ map real_time [r0; r1; r2] = [120; 125; 3000] /\
  map signal [r0; r1; r2] = [0; 0; 9] /\ c_mono c2 = 120007.
Proof.
  eexists _, _, _, _, _, _, _. split; [vm_compute; reflexivity|]. split; [reflexivity|].
  split; [vm_compute; reflexivity|]. split; [vm_compute; reflexivity|]. split; [vm_compute; reflexivity|]. repeat split.
Qed.

(** What a call does to others: its number can be given to the program of a later call; and a signal that its thread sends to this
    number after its own program is gone ends the program that has it.  Nothing else. *)
Theorem C99_what_others_do : forall m w ops g j c i o,
  gexec (before_calls m w) ops = Some g -> nth_error (g_calls g) j = Some c -> In (Other i, o) (c_past c) ->
  i <> j /\ exists ci, nth_error (g_calls g) i = Some ci /\ p_pid (c_par ci) = p_pid (c_par c) /\
  (o = Recycle \/ (o = Die 9 false /\ exists k, In k (kills (c_st ci)) /\ kl_target k = TStranger)).
Proof. exact (fun m w ops g j c i o H => from_other m w ops g H j c i o). Qed.
Print Assumptions C99_what_others_do.
Example C99_what_others_do_example : exists g c0, gexec (before_calls 7 1000000000) three_calls = Some g /\
  nth_error (g_calls g) 0 = Some c0 /\ In (Other 2, Recycle) (c_past c0).
Proof. eexists _, _. split; [vm_compute; reflexivity|]. split; [reflexivity|]. cbn. auto 20. Qed.

(** A call whose program ends in time, by the five delays of C98, never ends the program of another call, however many there are
    and however numbers are given again. *)
Theorem C99_undisturbed : forall lag m w ops g i j c ci,
  0 <= lag -> gexec (before_calls m w) ops = Some g ->
  nth_error (g_calls g) j = Some c -> nth_error (g_calls g) i = Some ci ->
  ordinary lag ci -> in_good_time lag ci -> ~ ended_by i c.
Proof. exact undisturbed. Qed.
Print Assumptions C99_undisturbed.

Ltac plain := let I := fresh in intros; intros I; cbn in I; intuition discriminate.

(** The first of the three calls is such a call. *)
Example C99_undisturbed_example : exists g c0,
  gexec (before_calls 7 1000000000) three_calls = Some g /\ nth_error (g_calls g) 0 = Some c0 /\
  ordinary 100 c0 /\ in_good_time 100 c0 /\ p_pid (c_par c0) = 4242.
Proof.
  eexists _, _. split; [vm_compute; reflexivity|]. split; [reflexivity|].
  split; [|split; [|reflexivity]].
  - split; [vm_compute; intuition discriminate|]. split; [reflexivity|].
    split; [unfold args_intact; plain|]. split; [unfold not_interrupted; plain|]. split; [unfold calls_succeed; plain|].
    split; [unfold steady_clock; plain|]. split; [unfold never_stopped; plain|].
    apply busy_prompt. vm_compute. intuition discriminate.
  - intros o life Li. unfold events, began in Li. cbn [c_past c_par c_mono c_wall map snd] in Li.
    match type of Li with lives _ ?P ?s0 ?l _ _ =>
      assert (exists s, exec P s0 l = Some s) as [s Es] by (eexists; vm_compute; reflexivity);
      assert (lives any_end P s0 l (Exited 0) 120000) as K end.
    { exists (up_to_wait ++ thread_asleep ++ [Tick 120000]), (Exit 0). do 2 eexists.
      split; [reflexivity|]. split; [repeat constructor|]. split; [vm_compute; reflexivity|reflexivity]. }
    destruct (ends_once _ _ _ _ _ _ _ _ _ Es Li K) as [_ ->]. cbn. discriminate.
Qed.

(** A call among others succeeds as it would alone. *)
Theorem C99_success : forall lag m w ops g j c r life,
  0 <= lag -> gexec (before_calls m w) ops = Some g -> nth_error (g_calls g) j = Some c ->
  ordinary lag c -> limits_accepted (p_config (c_par c)) -> 0 < p_pid (c_par c) -> usages_ok (events c) ->
  clocks_fit (c_mono c) (c_wall c) (c_st c) -> returned (c_st c) r -> error r = 0 ->
  lives own_end (c_par c) (began c) (events c) (Exited 0) life ->
  life + 5 * lag <= 1000 * max_real_time (p_config (c_par c)) ->
  ~ exceeded (max_cpu_time (p_config (c_par c))) (cpu_time r) -> ~ exceeded (max_memory (p_config (c_par c))) (memory r) ->
  verdict r = 0 /\ kills (c_st c) = [].
Proof. exact call_succeeds. Qed.
Print Assumptions C99_success.
Example C99_success_example : exists g c1 r, 
  gexec (before_calls 7 1000000000) three_calls = Some g /\ nth_error (g_calls g) 1 = Some c1 /\
  ordinary 100 c1 /\ limits_accepted (p_config (c_par c1)) /\ 0 < p_pid (c_par c1) /\ usages_ok (events c1) /\
  clocks_fit (c_mono c1) (c_wall c1) (c_st c1) /\ returned (c_st c1) r /\ error r = 0 /\
  lives own_end (c_par c1) (began c1) (events c1) (Exited 0) 125000 /\
  125000 + 5 * 100 <= 1000 * max_real_time (p_config (c_par c1)) /\
  ~ exceeded (max_cpu_time (p_config (c_par c1))) (cpu_time r) /\ ~ exceeded (max_memory (p_config (c_par c1))) (memory r).
Proof.
  eexists _, _, _. split; [vm_compute; reflexivity|]. split; [reflexivity|].
  split; [|split; [|split; [reflexivity|split; [|split; [|split; [reflexivity|split; [reflexivity|split; [|split; [|split]]]]]]]]].
  - split; [vm_compute; intuition discriminate|]. split; [reflexivity|].
    split; [unfold args_intact; plain|]. split; [unfold not_interrupted; plain|]. split; [unfold calls_succeed; plain|].
    split; [unfold steady_clock; plain|]. split; [unfold never_stopped; plain|].
    apply busy_prompt. vm_compute. intuition discriminate.
  - exact sample_limits.
  - intros ru I. unfold events in I. cbn in I.
    repeat (destruct I as [I|I]; [try discriminate I; try (injection I as <-; vm_compute; intuition discriminate)|]). destruct I.
  - vm_compute. intuition discriminate.
  - unfold events, began. cbn [c_past c_par c_mono c_wall map snd].
    exists ([Parent; Parent; Parent; Parent] ++ thread_asleep ++ [Tick 120000; Tick 5000]), (Exit 0). do 2 eexists.
    split; [reflexivity|]. split; [constructor|]. split; [vm_compute; reflexivity|reflexivity].
  - cbn. discriminate.
  - vm_compute. intuition discriminate.
  - vm_compute. intuition discriminate.
Qed.

(** Without the delays this is not so: the thread of a first call that has woken up in time, but is slow to go on, finds the number
    of its program in the hands of the program of a second call, and ends that.  The second call reports a runtime error with
    signal 9 although its program did nothing. *)
Definition slow_thread : list gop :=
  [Enter sample_params] ++ all_in 0 (up_to_wait ++ thread_asleep) ++ [Pass 3000000] ++
  all_in 0 [Exit 0; Wait sample_usage; Killer; Parent; Parent] ++
  [Enter sample_params; Do 1 Parent; Do 1 Parent; Do 0 Killer; Do 1 Parent; Do 1 Parent; Do 1 (Wait sample_usage); Do 1 Parent; Do 1 Parent].
Theorem C99_refuted : exists m w ops g c0 c1 r1,
  gexec (before_calls m w) ops = Some g /\ g_calls g = [c0; c1] /\
  ended_by 0 c1 /\ (forall x o, In (Own, x) (c_past c1) -> ~ own_end x o) /\
  returned (c_st c1) r1 /\ verdict r1 = 4 /\ signal r1 = 9 /\ error r1 = 0 /\ real_time r1 = 0.
Proof.
  exists 7, 1000000000, slow_thread. eexists _, _, _, _. split; [vm_compute; reflexivity|]. split; [reflexivity|].
  split; [|split].
  - exists 9, false. cbn. auto 20.
  - intros x o I Y. cbn in I. destruct Y; intuition discriminate.
  - repeat split.
Qed.
Print Assumptions C99_refuted.
