(** Facts about the samples of Spec/Samples.v. *)
From Coq Require Import ZArith Bool List Lia.
From Verif.Base Require Import CInt CStr.
From Verif.Model Require Import Config Runner.
From Verif.Spec Require Import Verdict RunSpec Samples.
From Verif.Proofs Require Import RunnerProofs.
Import ListNotations.
Open Scope Z_scope.

Lemma tv_ok_b t :
  (0 <=? tv_sec t) && (tv_sec t <? 2 ^ 50) && (0 <=? tv_usec t) && (tv_usec t <? 1000000) = true -> tv_ok t.
Proof.
  rewrite !andb_true_iff, !Z.leb_le, !Z.ltb_lt. unfold tv_ok, instant_ok. tauto.
Qed.

Lemma sample_limits : limits_accepted sample_config.
Proof. unfold limits_accepted, limit_ok. cbn. lia. Qed.

Lemma judged_intro c e o ru :
  e_getuid e = 0 -> limits_accepted c -> 0 < e_fork e -> e_pthread_create e = 0 ->
  e_wait4 e = Some (wait_status o, ru) -> wf_outcome o ->
  tv_ok (e_start e) -> tv_ok (e_end e) -> tv_ok (ru_utime ru) -> rss_ok ru ->
  judged c e o ru.
Proof.
  intros. unfold judged, env_ok. conj.
  - right; assumption.
  - intros st ru' E. rewrite E in *.
    match goal with H : Some _ = Some _ |- _ => injection H as -> -> end.
    conj. exists o. conj.
Qed.

Lemma sample_env_judged o ru :
  wf_outcome o -> tv_ok (ru_utime ru) -> rss_ok ru ->
  judged sample_config (sample_env (wait_status o) ru) o ru.
Proof.
  intros. apply judged_intro; try assumption; try reflexivity.
  - apply sample_limits.
  - apply tv_ok_b; reflexivity.
  - apply tv_ok_b; reflexivity.
Qed.
