(** C86: the set-up of Model/Processes.v and child_process. *)
From Coq Require Import ZArith Bool List Arith String Lia.
From Verif.Base Require Import CInt CStr.
From Verif.Model Require Import Config Runner Processes.
From Verif.Model Require Child Seccomp.
From Verif.Spec Require Import ProcSpec.
From Verif.Spec Require SandboxSpec.
From Verif.Proofs Require Import ProcBase.
From Verif.Proofs Require ChildClaims ChildExec.
Import ListNotations.
Open Scope list_scope.
Open Scope Z_scope.

Lemma set_up_agrees : forall env log c k0 p a v k m flagged, SandboxSpec.ready c k0 ->
  Child.euid (Child.k_cred k0) = 0 -> Child.ruid (Child.k_cred k0) = 0 ->
  Child.child_process env log c k0 = Child.CExec p a v k ->
  let r := executed (dropped flagged (limited (forked_by_judger c m))) in
  r_user r = Child.ruid (Child.k_cred k) /\
  (forall n, r_limit r = Some n -> Child.k_rlim k Child.RNproc = (n, n)) /\
  (r_limit r = None -> Child.k_rlim k Child.RNproc = Child.k_rlim k0 Child.RNproc) /\
  (forall call arg, In call fork_calls ->
     (let_through c call = true <-> Child.filters_action (Child.k_filter k) (Seccomp.mkSys true call arg) = Seccomp.ActAllow)).
Proof.
  intros env log c k0 p a v k m flagged R E0 R0 E r.
  destruct (ChildClaims.c20_privileges env log c k0 p a v k R E0 E) as ((_ & D) & _ & K).
  destruct (ChildClaims.c15_limits env log c k0 p a v k R E Child.RNproc) as (L & _).
  subst r. cbn [executed dropped limited forked_by_judger r_user r_limit r_conf]. split; [|split; [|split]].
  - destruct (keeps_reflect (uid c)) as [Ek|Nk].
    + destruct (K Ek) as (-> & _). symmetry. exact R0.
    + destruct (D Nk) as (-> & _). reflexivity.
  - intros n. cbn in L. destruct (Z.eqb_spec (max_process_number c) UNLIMITED) as [U|U]; [discriminate|].
    intro Q. injection Q as <-. rewrite L. unfold UNLIMITED in U.
    destruct (Z.eqb_spec (max_process_number c) (-1)); [contradiction|reflexivity].
  - cbn in L. destruct (Z.eqb_spec (max_process_number c) UNLIMITED) as [U|U]; [|discriminate].
    intros _. rewrite L. rewrite U. reflexivity.
  - intros call arg A. unfold let_through. pose proof (ChildClaims.exec_filter _ _ _ _ _ _ _ _ R E) as F.
    unfold ChildExec.filter_loaded in F.
    destruct (seccomp_rule_name c) as [nm|]; [|rewrite F; cbn; tauto].
    destruct F as (f & -> & P & _). rewrite ChildClaims.single_filter.
    destruct (Child.ce_has_execveat env); cbn in A;
      destruct P; repeat destruct A as [<-|A]; try destruct A; cbn; split; intro X; (reflexivity || discriminate X).
Qed.
