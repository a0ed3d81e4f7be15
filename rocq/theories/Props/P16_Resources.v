(** C69: what a call of run() leaves behind in the process that called it. *)
From Coq Require Import ZArith Bool List Lia.
From Verif.Base Require Import CInt CStr.
From Verif.Model Require Import Config Runner.
From Verif.Spec Require Import Verdict RunSpec Samples ResourceSpec.
From Verif.Proofs Require Import SampleFacts ResourceProofs.
Import ListNotations.
Open Scope list_scope.
Open Scope Z_scope.

(** C69 *)
Theorem C69_log_closed : forall c e r ef, run c e = Returns r ef -> log_tidy (log_path c) ef.
Proof. exact c69_log. Qed.
Print Assumptions C69_log_closed.

Theorem C69_no_log_left_open : forall calls efs,
  Forall2 (fun ce ef => exists r, run (fst ce) (snd ce) = Returns r ef) calls efs -> logs_open (List.concat efs) = 0.
Proof. exact c69_history. Qed.
Print Assumptions C69_no_log_left_open.

Theorem C69_process_reaped : forall c e r ef, env_ok e -> run c e = Returns (Val r) ef -> process_created e ef ->
  (process_reaped e ef <->
   error r = 0 /\ forall sig ru, 1 <= sig <= 64 -> e_wait4 e <> Some (wait_status (Stopped sig), ru)).
Proof. exact c69_process. Qed.
Print Assumptions C69_process_reaped.

Theorem C69_thread_cancelled : forall c e r ef, run c e = Returns (Val r) ef ->
  (thread_created ef <-> max_real_time c <> UNLIMITED /\ (error r = 0 \/ error r = WAIT_FAILED)) /\
  (thread_created ef -> (thread_cancelled ef <-> error r = 0)).
Proof. exact c69_thread. Qed.
Print Assumptions C69_thread_cancelled.

(** A judgement, then one for which no thread can be created, then one whose wait fails. *)
Example C69_sample : exists r1 ef1 r2 ef2 r3 ef3,
  let e1 := sample_env 0 sample_usage in
  let e2 := mkRunEnv 0 (mkTv 1000 500000) 4243 11 (Some (0, sample_usage)) (mkTv 1000 620250) in
  let e3 := mkRunEnv 0 (mkTv 1000 500000) 4244 0 None (mkTv 1000 620250) in
  run sample_config e1 = Returns (Val r1) ef1 /\ process_created e1 ef1 /\ error r1 = 0 /\
  run sample_config e2 = Returns (Val r2) ef2 /\ process_created e2 ef2 /\ error r2 = PTHREAD_FAILED /\
  run sample_config e3 = Returns (Val r3) ef3 /\ process_created e3 ef3 /\ error r3 = WAIT_FAILED.
Proof.
  do 6 eexists. unfold process_created. repeat (split; [vm_compute; auto; try reflexivity|]); vm_compute; auto.
Qed.

(** Not every process is reaped, and not every thread is cancelled. *)
Theorem C69_reaped_refuted : exists c e r ef, env_ok e /\ run c e = Returns (Val r) ef /\
  process_created e ef /\ ~ process_reaped e ef.
Proof.
  exists sample_config, (mkRunEnv 0 (mkTv 1000 500000) 4243 11 None (mkTv 1000 620250)). do 2 eexists.
  split; [split; [apply tv_ok_b; reflexivity|split; [apply tv_ok_b; reflexivity|discriminate]]|].
  split; [vm_compute; reflexivity|]. split; [vm_compute; auto|]. intros (_ & o & ru & E & _). discriminate.
Qed.
Print Assumptions C69_reaped_refuted.

Theorem C69_cancelled_refuted : exists c e r ef, env_ok e /\ run c e = Returns (Val r) ef /\
  thread_created ef /\ ~ In EfCancel ef.
Proof.
  exists sample_config, (mkRunEnv 0 (mkTv 1000 500000) 4243 0 None (mkTv 1000 620250)). do 2 eexists.
  split; [split; [apply tv_ok_b; reflexivity|split; [apply tv_ok_b; reflexivity|discriminate]]|].
  split; [vm_compute; reflexivity|]. split; [do 2 eexists; cbn; auto|]. cbn. intuition discriminate.
Qed.
Print Assumptions C69_cancelled_refuted.
