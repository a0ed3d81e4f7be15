From Coq Require Import ZArith NArith Bool List Ascii String Arith Lia.
From Verif.Base Require Import CInt CStr CMem.
From Verif.Model Require Import Logger.
From Verif.Spec Require Import IntText LogSpec NoLog.
From Verif.Proofs Require Import LogProofs.
Import ListNotations.
Open Scope list_scope.
Open Scope nat_scope.

Lemma each_closed locks writes s cs :
  log_each false locks writes s cs = Val (map (fun _ => LStderr (lit "can not open log file")) cs).
Proof. induction cs as [|c cs IH]; [reflexivity|]. cbn [log_each log_write negb cbind]. rewrite IH. reflexivity. Qed.

Lemma no_log : forall name locks writes cs, exists l,
  log_session false name locks writes cs = Val l /\ (forall c, In c l -> ~ uses_file c) /\
  printed l = lit "can not open log file " ++ name ++ List.concat (map (fun _ => lit "can not open log file") cs).
Proof.
  intros name locks writes cs. unfold log_session. rewrite each_closed. cbn [cbind]. eexists. split; [reflexivity|]. split.
  - intros c [<-|J]; [intros []|]. apply in_map_iff in J. destruct J as (x & <- & _). intros [].
  - cbn [log_open app printed]. rewrite <- app_assoc. do 2 f_equal. induction cs as [|c cs IH]; [reflexivity|]. cbn [map printed List.concat]. rewrite IH. reflexivity.
Qed.

Lemma each_open s cs : forall ls, sized s -> Forall2 asks_line cs ls -> Forall (fun l => (N.of_nat (List.length l) < 8192)%N) ls ->
  log_each true (fun _ => true) (fun _ => true) s cs = Val (flat_map (fun l => [LFlockEx; LWrite l; LFlockUn]) ls).
Proof.
  revert s. induction cs as [|c cs IH]; intros s ls Z F B; inversion F; subst; [reflexivity|]. inversion B; subst.
  cbn [log_each log_write negb]. destruct (data_line s c y Z) as (s' & Z' & ->); [assumption|assumption|]. cbn [cbind]. rewrite (IH s' l'); auto.
Qed.
Lemma with_log : forall name cs ls, Forall2 asks_line cs ls -> Forall (fun l => (N.of_nat (List.length l) < 8192)%N) ls ->
  log_session true name (fun _ => true) (fun _ => true) cs = Val (flat_map (fun l => [LFlockEx; LWrite l; LFlockUn]) ls).
Proof.
  intros name cs ls F B. unfold log_session. rewrite (each_open fresh_buffers cs ls fresh_sized F B). reflexivity.
Qed.
