(** The samples of Spec/FilesSamples.v are programs as the judger starts them; their histories. *)
From Coq Require Import ZArith Bool List String Lia.
From Verif.Base Require Import CInt CStr.
From Verif.Model Require Import Config Runner Seccomp Child Program Files.
From Verif.Spec Require Import Verdict RunSpec SandboxSpec Samples ChildSamples ContainSpec ContainSamples FilesSpec FilesSamples.
From Verif.Proofs Require Import ChildClaims SampleFacts ProgramProofs FilesProofs.
From Verif.Props Require Import P02_Child.
Import ListNotations.
Open Scope list_scope.
Open Scope Z_scope.

Section Io.
Variables (inp out err : string) (size : Z).
Hypothesis Pos : 1 <= size < 2147483648.

Lemma io_ready : ready (io_config inp out err size) sample_k0.
Proof.
  split; [repeat split; cbn; unfold U32_MOD, LONG_MIN, LONG_MAX, INT_MIN, INT_MAX; try lia; intros; try discriminate|].
  split; [repeat split; cbn; unfold limit_ok; lia|]. split; [cbn; lia|apply sample_ready].
Qed.
Lemma io_exec : exists p a v, child_process (sample_child_env None) sample_log (io_config inp out err size) sample_k0 = CExec p a v (io_state inp out err size).
Proof.
  destruct (c13_program_starts (sample_child_env None) sample_log (io_config inp out err size) sample_k0) as (p & a & v & k & E).
  - apply io_ready.
  - apply sample_all_succeed.
  - cbn. auto.
  - reflexivity.
  - exists p, a, v. unfold io_state. rewrite E. reflexivity.
Qed.
Lemma io_judged : judged (io_config inp out err size) (ce_exe_ptr (sample_child_env None)) (io_program inp out err size).
Proof.
  destruct io_exec as (p & a & v & E). exists (sample_child_env None), sample_log, sample_k0, p, a, v, (io_state inp out err size).
  split; [apply io_ready|]. split; [reflexivity|]. split; [intros r; cbn; lia|]. split; [exact E|]. split; reflexivity.
Qed.
Lemma io_c_cpp : c_cpp_program (io_program inp out err size).
Proof.
  exists (io_config inp out err size), (ce_exe_ptr (sample_child_env None)). split; [apply io_judged|]. split; [|reflexivity].
  repeat split; unfold keep_id; cbn; lia.
Qed.
Lemma io_limited L : size <= L -> limited_to L (io_program inp out err size).
Proof. intros H. exists (io_config inp out err size), (ce_exe_ptr (sample_child_env None)). split; [apply io_judged|]. cbn. lia. Qed.
Lemma one_started : all_started (one (io_program inp out err size)).
Proof.
  intros p s H. unfold one in H. do 7 (destruct p as [|p]; [discriminate|]). destruct p; [|discriminate]. injection H as <-.
  eexists. split; [reflexivity|]. left. apply io_c_cpp.
Qed.
Lemma one_limited L : size <= L -> forall p P, one (io_program inp out err size) p = Some (inl P) -> limited_to L P.
Proof.
  intros Z0 p P H. unfold one in H. do 7 (destruct p as [|p]; [discriminate|]). destruct p; [|discriminate]. injection H as <-. apply io_limited, Z0.
Qed.
End Io.

Lemma one_running P : all_running (one P).
Proof. intros p s H. unfold one in H. do 7 (destruct p as [|p]; [discriminate|]). destruct p; [|discriminate]. injection H as <-. eauto. Qed.
Lemma one_nobody f P i g : nobody_else f (one P) 7 i g.
Proof. intros q Q n o H N. exfalso. unfold one in H. do 7 (destruct q as [|q]; [discriminate|]). destruct q; [contradiction|discriminate]. Qed.

(** A history as a chain of steps from the left. *)
Lemma fruns_cons f x w D d w1 D1 ds w2 D2 : fstep f x w D d w1 D1 -> fruns f x w1 D1 ds w2 D2 -> fruns f x w D (d :: ds) w2 D2.
Proof.
  intros St R. induction R as [|ds w3 D3 d3 w4 D4 R IH St3].
  - apply (fruns_snoc f x w D [] w D d w1 D1); [constructor|exact St].
  - apply (fruns_snoc f x w D (d :: ds) w3 D3); [exact IH|exact St3].
Qed.

(** The file behind a descriptor of the sample. *)
Definition through (P : proc) (n : nat) : ofile := match fd P n with Some o => o | None => mkOf 0 [] MRead end.
Definition writes (P : proc) (n : nat) (asked taken : string) : deed :=
  mkDeed (Calls 7 (call "write" [Z.of_nat n; 4096; 0])) (Some (through P n, lit asked, lit taken)).
Definition ends (code : Z) : deed := mkDeed (Calls 7 (call "exit_group" [code])) None.
