(** The sample programs are programs as the judger starts them. *)
From Coq Require Import ZArith Bool List String Lia.
From Verif.Base Require Import CInt CStr.
From Verif.Model Require Import Config Runner Seccomp Child Program.
From Verif.Spec Require Import Verdict RunSpec SandboxSpec Samples ChildSamples ContainSpec ContainSamples.
From Verif.Proofs Require Import ChildClaims SampleFacts ProgramProofs.
From Verif.Props Require Import P02_Child.
Import ListNotations.
Open Scope list_scope.
Open Scope Z_scope.

Lemma sub_judged nm u : 0 <= u < 4294967295 ->
  In nm [None; Some "c_cpp"; Some "c_cpp_file_io"; Some "general"; Some "golang"; Some "node"]%string ->
  judged (sub_config nm u) sub_ptr (sub_program nm u).
Proof.
  intros U H. assert (ready (sub_config nm u) sample_k0) as R.
  { split; [repeat split; cbn; unfold U32_MOD; try lia; intros; try discriminate|].
    split; [repeat split; cbn; unfold limit_ok; lia|]. split; [cbn; lia|apply sample_ready]. }
  destruct (c13_program_starts (sample_child_env None) sample_log (sub_config nm u) sample_k0) as (p & a & v & k & E).
  - exact R.
  - apply sample_all_succeed.
  - cbn in H. repeat destruct H as [<-|H]; cbn; auto 6. contradiction.
  - reflexivity.
  - exists (sample_child_env None), sample_log, sample_k0, p, a, v, k.
    split; [exact R|]. split; [reflexivity|]. split; [intros r; cbn; lia|]. split; [exact E|]. split; [reflexivity|].
    unfold sub_program. rewrite E. reflexivity.
Qed.

Lemma sub_user nm u : 0 < u < 4294967295 -> as_user (sub_config nm u).
Proof. intros U. repeat split; unfold keep_id; cbn; lia. Qed.

Lemma sub_c_cpp u : 0 < u < 4294967295 -> c_cpp_program (sub_program (Some "c_cpp"%string) u).
Proof.
  intros U. exists (sub_config (Some "c_cpp"%string) u), sub_ptr.
  split; [apply sub_judged; [lia|cbn; auto]|]. split; [apply sub_user, U|reflexivity].
Qed.

Lemma sub_file_io u : 0 < u < 4294967295 -> c_cpp_file_io_program (sub_program (Some "c_cpp_file_io"%string) u).
Proof.
  intros U. exists (sub_config (Some "c_cpp_file_io"%string) u), sub_ptr.
  split; [apply sub_judged; [lia|cbn; auto]|]. split; [apply sub_user, U|reflexivity].
Qed.

Lemma two_started u1 u2 : 0 < u1 < 4294967295 -> 0 < u2 < 4294967295 -> all_started (two (Some "c_cpp"%string) u1 u2).
Proof.
  intros U1 U2 p s H. unfold two in H.
  do 7 (destruct p as [|p]; [discriminate|]). destruct p as [|[|p]]; [| |discriminate]; injection H as <-; eexists.
  - split; [reflexivity|]. left. apply sub_c_cpp, U1.
  - split; [reflexivity|]. left. apply sub_c_cpp, U2.
Qed.

Lemma two_file_io u1 u2 : 0 < u1 < 4294967295 -> 0 < u2 < 4294967295 -> all_started (two (Some "c_cpp_file_io"%string) u1 u2).
Proof.
  intros U1 U2 p s H. unfold two in H.
  do 7 (destruct p as [|p]; [discriminate|]). destruct p as [|[|p]]; [| |discriminate]; injection H as <-; eexists.
  - split; [reflexivity|]. right. apply sub_file_io, U1.
  - split; [reflexivity|]. right. apply sub_file_io, U2.
Qed.

Lemma sub_ruid nm u : 0 < u < 4294967295 ->
  In nm [Some "c_cpp"; Some "c_cpp_file_io"; Some "general"; Some "golang"; Some "node"]%string ->
  ruid (p_cred (sub_program nm u)) = u.
Proof.
  intros U H. destruct (judged_facts (sub_config nm u) sub_ptr (sub_program nm u)) as (_ & _ & _ & E & _).
  - apply sub_judged; [lia|right; exact H].
  - apply sub_user, U.
  - cbn in H. repeat destruct H as [<-|H]; try discriminate. contradiction.
  - exact E.
Qed.

Lemma two_own u1 u2 : 0 < u1 < 4294967295 -> 0 < u2 < 4294967295 -> u1 <> u2 -> own_user (two (Some "c_cpp"%string) u1 u2) 8.
Proof.
  intros U1 U2 N p P Q Hp Hq Np.
  assert (Q = sub_program (Some "c_cpp"%string) u2) as -> by (revert Hq; cbn [two]; congruence).
  assert (P = sub_program (Some "c_cpp"%string) u1) as ->.
  { revert Hp. unfold two. do 7 (destruct p as [|p]; [discriminate|]). destruct p as [|[|p]]; try congruence. }
  rewrite !sub_ruid; auto; cbn; auto.
Qed.
