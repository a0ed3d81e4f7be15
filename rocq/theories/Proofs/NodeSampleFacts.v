From Coq Require Import ZArith Bool List Ascii String Arith Lia.
From Verif.Base Require Import CStr.
From Verif.Model Require Import Config NodeBinding.
From Verif.Spec Require Import IntText NodeSpec NodeSamples.
From Verif.Proofs Require Import NodeProofs.
Import ListNotations.
Open Scope list_scope.
Open Scope nat_scope.

Lemma sample_object : object_of node_object node_sample /\ env_with_args node_object.
Proof.
  split; [|right; eexists; reflexivity]. split; [|split; [|split]].
  - intros n z I. cbn in I. repeat (destruct I as [I|I]; [injection I as <- <-; reflexivity|]). destruct I.
  - intros n z I. cbn in I. repeat (destruct I as [I|I]; [injection I as <- <-; reflexivity|]). destruct I.
  - right. eexists. split; [reflexivity|]. apply elements_str, elements_null, elements_str, elements_nil.
  - right. eexists. split; [reflexivity|]. apply elements_str, elements_nil.
Qed.
Lemma plain_of s : forallb shell_neutral s = true -> List.length s <= 254 -> plain_text s.
Proof. intros F L. split; [|exact L]. apply Forall_forall. intros c I. rewrite forallb_forall in F. apply shell_neutral_iff, F, I. Qed.
Lemma sample_plain : plain_call node_sample.
Proof.
  split; [|split].
  - intros n s I. cbn [k_strs node_sample k_input_path k_output_path k_error_path k_exe_path k_log_path k_seccomp_rule_name In] in I.
    repeat (destruct I as [I|I]; [first [discriminate I|apply (f_equal snd) in I; cbn [snd] in I; injection I as I; rewrite <- I; apply plain_of; [reflexivity|vm_compute; lia]]|]). destruct I.
  - constructor; [apply plain_of; [reflexivity|vm_compute; lia]|]. constructor; [apply plain_of; [reflexivity|vm_compute; lia]|constructor].
  - constructor; [apply plain_of; [reflexivity|vm_compute; lia]|constructor].
Qed.
Lemma sample_acceptable : acceptable node_sample.
Proof.
  split; [|split; [|split; [|split; [|split; [|split]]]]].
  - intros n z I. cbn in I. repeat (destruct I as [I|I]; [first [discriminate I|injection I as _ <-; unfold is_int; lia]|]). destruct I.
  - intros n z I. cbn in I. repeat (destruct I as [I|I]; [first [discriminate I|injection I as _ <-; discriminate]|]). destruct I.
  - constructor; [discriminate|]. constructor; [discriminate|constructor].
  - constructor; [discriminate|constructor].
  - vm_compute. lia.
  - vm_compute. lia.
  - discriminate.
Qed.
