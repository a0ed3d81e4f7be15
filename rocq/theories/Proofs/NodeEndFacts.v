(** The samples of C80 for Node calls that start no judger. *)
From Coq Require Import ZArith Bool List Ascii String Lia.
From Verif.Base Require Import CStr.
From Verif.Model Require Import NodeBinding.
From Verif.Spec Require Import NodeSpec CallerSamples NodeEndSamples.
Import ListNotations.
Open Scope list_scope.

Lemma js_long_ok : object_of (js_object js_long) js_long /\ env_with_args (js_object js_long) /\ has_long js_long.
Proof.
  split; [|split].
  - split; [|split; [|split]].
    + intros n z I. unfold k_ints in I. cbn [In] in I. repeat (destruct I as [I|I]; [injection I as <- <-; reflexivity|]). destruct I.
    + intros n z I. unfold k_strs in I. cbn [In] in I. repeat (destruct I as [I|I]; [injection I as <- <-; reflexivity|]). destruct I.
    + right. eexists. split; [reflexivity|]. repeat constructor.
    + right. eexists. split; [reflexivity|]. repeat constructor.
  - right. eexists. reflexivity.
  - right; left. apply Exists_cons_tl, Exists_cons_hd. exists (repeat "a"%char 255), []. split; [rewrite app_nil_r; reflexivity|].
    split; [|apply repeat_length]. intros I. apply repeat_spec in I. discriminate I.
Qed.

Lemma js_alone_ok : object_of (js_object_alone js_alone) js_alone /\
  js_object_alone js_alone "env"%string = JSArr [JSStr (lit "PATH=/bin")] /\ js_object_alone js_alone "args"%string = JSNull /\ ~ has_long js_alone.
Proof.
  split; [|split; [reflexivity|split; [reflexivity|]]].
  - split; [|split; [|split]].
    + intros n z I. unfold k_ints in I. cbn [In] in I. repeat (destruct I as [I|I]; [injection I as <- <-; reflexivity|]). destruct I.
    + intros n z I. unfold k_strs in I. cbn [In] in I. repeat (destruct I as [I|I]; [injection I as <- <-; reflexivity|]). destruct I.
    + left. split; reflexivity.
    + right. eexists. split; [reflexivity|]. repeat constructor.
  - assert (S : forall s, (List.length s < 255)%nat -> ~ too_long s).
    { intros s L (t & u & -> & _ & E). rewrite app_length in L. lia. }
    intros [(n & s & I & T)|[T|T]].
    + unfold k_strs in I. cbn [In js_alone js_with k_input_path k_output_path k_error_path k_exe_path k_log_path k_seccomp_rule_name] in I.
      repeat (destruct I as [I|I]; [first [discriminate I|injection I as _ <-; revert T; apply S; vm_compute; lia]|]). destruct I.
    + inversion T.
    + inversion T as [? ? X|? ? X]; subst; [|inversion X]. revert X. apply S. vm_compute. lia.
Qed.
