(** The samples of C103. *)
From Coq Require Import ZArith Bool List Ascii String Arith Lia.
From Verif.Base Require Import CInt CStr.
From Verif.Model Require Import Config Runner Child Timeout Judger NodeBinding Messages Callers Shell.
From Verif.Spec Require Import Verdict RunSpec TimeoutSpec JudgerSpec CallerSpec OutputSpec.
From Verif.Spec Require Import CmdLine Invocation NodeSpec ShellSpec JudgerSamples CallerSamples.
From Verif.Proofs Require Import NodeProofs JudgerSampleFacts CallerSampleFacts ShellProofs.
Import ListNotations.
Open Scope list_scope.

Ltac noin := let I := fresh in intro I; cbn in I; repeat (destruct I as [I|I]; [discriminate I|]); exact I.
Ltac plain := split; [apply Forall_forall; intros c I; apply shell_neutral_iff; revert c I; apply forallb_forall; reflexivity|vm_compute; lia].
Ltac stands := first [right; split; [reflexivity|split; [noin|vm_compute; lia]] | left; split; [reflexivity|plain]].

Lemma awkward_stands : call_stands_for awkward_written awkward.
Proof.
  split; [reflexivity|]. split; [|split].
  - repeat (constructor; [cbn [maybe snd]; first [exact Logic.I|stands]|]). constructor.
  - repeat (constructor; [stands|]). constructor.
  - constructor.
Qed.
Lemma awkward_object : object_of (js_object awkward_written) awkward_written /\ env_with_args (js_object awkward_written).
Proof.
  split; [|right; eexists; reflexivity]. split; [|split; [|split]].
  - intros n z I. unfold k_ints in I. cbn [In] in I. repeat (destruct I as [I|I]; [injection I as <- <-; reflexivity|]). destruct I.
  - intros n z I. unfold k_strs in I. cbn [In] in I. repeat (destruct I as [I|I]; [injection I as <- <-; reflexivity|]). destruct I.
  - right. eexists. split; [reflexivity|]. repeat constructor.
  - right. eexists. split; [reflexivity|]. repeat constructor.
Qed.
Lemma awkward_acceptable : acceptable awkward.
Proof.
  split; [|split; [|split; [|split; [|split; [|split]]]]].
  - intros n z I. unfold k_ints in I. cbn in I. repeat (destruct I as [I|I]; [first [discriminate I|injection I as _ <-; vm_compute; split; discriminate]|]). destruct I.
  - intros n s I. unfold k_strs in I. cbn [In awkward call_with k_input_path k_output_path k_error_path k_exe_path k_log_path k_seccomp_rule_name] in I.
    repeat (destruct I as [I|I]; [first [discriminate I|injection I as _ <-; discriminate]|]). destruct I.
  - repeat (constructor; [discriminate|]). constructor.
  - constructor.
  - cbn; lia.
  - cbn; lia.
  - discriminate.
Qed.

Lemma js_quoted_stands : call_stands_for (all_quoted js_sample) js_sample.
Proof.
  split; [reflexivity|]. split; [|split].
  - repeat (constructor; [cbn [maybe snd]; first [exact Logic.I|stands]|]). constructor.
  - repeat (constructor; [stands|]). constructor.
  - repeat (constructor; [stands|]). constructor.
Qed.
Lemma js_quoted_object : object_of (js_object (all_quoted js_sample)) (all_quoted js_sample) /\ env_with_args (js_object (all_quoted js_sample)).
Proof.
  split; [|right; eexists; reflexivity]. split; [|split; [|split]].
  - intros n z I. unfold k_ints in I. cbn [In] in I. repeat (destruct I as [I|I]; [injection I as <- <-; reflexivity|]). destruct I.
  - intros n z I. unfold k_strs in I. cbn [In] in I. repeat (destruct I as [I|I]; [injection I as <- <-; reflexivity|]). destruct I.
  - right. eexists. split; [reflexivity|]. repeat constructor.
  - right. eexists. split; [reflexivity|]. repeat constructor.
Qed.
Lemma js_quoted_runs : exists c s,
  node_sh_calls (sample_world None) (lit "{hello}") (js_object (all_quoted js_sample)) (Ran c sample_success s)
    (Some (NodeReturns (lit "{hello}") (result_object (mkResult 80 120 1536000 0 0 0 0)))) /\
  measurable (sample_world None) (Ran c sample_success s).
Proof.
  destruct js_sample_runs as (c & s & R & M). exists c, s. split; [|exact M].
  destruct js_sample_ok as (O & E & P & _). destruct (node_started _ _ O E P) as (cmd & C & S).
  destruct js_quoted_object as (O' & E'). destruct (quoted_started _ _ _ O' E' js_quoted_stands) as (cmd' & C' & S').
  inversion R as [| |cmd1 argv1 h t st o1 C1 S1 H1 J1 N1 D1 Eh Eo]; subst.
  assert (cmd1 = cmd) as -> by congruence. rewrite S in S1. injection S1 as <-.
  exact (node_sh_starts _ _ _ cmd' _ _ t st _ C' S' H1 J1 N1 D1).
Qed.
Lemma breaks_case : plain_text (lit "/bin/x") /\ nul_free (lit "my $file") /\ ~ In quote (lit "my $file") /\ command_word (lit "reboot") /\
  (List.length (wrapped (breaks_out (lit "my $file") (lit "reboot"))) <= 254)%nat.
Proof.
  split; [plain|]. split; [noin|]. split; [noin|]. split; [|vm_compute; lia].
  split; [apply (proj1 (ltac:(plain) : plain_text (lit "reboot")))|]. split; [noin|]. split; [discriminate|].
  intros r I. cbn in I. repeat (destruct I as [<-|I]; [discriminate|]). destruct I.
Qed.
