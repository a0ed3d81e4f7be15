(** C80: how a call of the Node function ends that starts no judger. *)
From Coq Require Import ZArith Bool List Ascii String.
From Verif.Base Require Import CInt CStr.
From Verif.Model Require Import Config Judger NodeBinding Callers.
From Verif.Spec Require Import NodeSpec.
From Verif.Proofs Require Import NodeClaims NodeProofs.
Import ListNotations.
Open Scope list_scope.

Lemma throws_ends W own obj h o : node_command obj = NThrows -> (node_calls W own obj h o <-> h = NothingRun /\ o = None).
Proof.
  intro T. split.
  - intros [X|X|cmd argv h' t st o' X _ _ _ _ _]; [split; reflexivity|congruence|congruence].
  - intros [-> ->]. apply node_refuses, T.
Qed.
Lemma undef_ends W own obj h o : node_command obj = NUndef -> (node_calls W own obj h o <-> h = NothingRun /\ o = Some NodeUndefined).
Proof.
  intro T. split.
  - intros [X|X|cmd argv h' t st o' X _ _ _ _ _]; [congruence|split; reflexivity|congruence].
  - intros [-> ->]. apply node_crashes, T.
Qed.

Lemma ends_wrong_type W own obj n : In n node_int_vars -> obj n <> JSNull -> (forall z, obj n <> JSNum z) ->
  forall h o, node_calls W own obj h o <-> h = NothingRun /\ o = None.
Proof. intros I N Z h o. apply throws_ends, (node_int_type obj n I N Z). Qed.

Lemma ends_overflow W own obj p : object_of obj p -> env_with_args obj -> has_long p ->
  forall h o, node_calls W own obj h o <-> h = NothingRun /\ o = Some NodeUndefined.
Proof. intros O E L h o. apply undef_ends, (node_long obj p O E), L. Qed.

Lemma ends_env_alone W own obj p l : object_of obj p -> obj "env"%string = JSArr l -> obj "args"%string = JSNull -> ~ has_long p ->
  forall h o, node_calls W own obj h o <-> h = NothingRun /\ o = None.
Proof. intros O E A L h o. apply throws_ends, (node_env_alone obj p l O E A L). Qed.

Lemma ends_no_exception W own obj p h : object_of obj p -> env_with_args obj -> ~ node_calls W own obj h None.
Proof.
  intros O E C. inversion C as [T| |]; subst.
  destruct (node_long obj p O E) as [Lu Lv].
  assert (~ has_long p) as NL by (intro L; apply Lu in L; congruence). apply Lv in NL. destruct NL as [cmd X]. congruence.
Qed.
