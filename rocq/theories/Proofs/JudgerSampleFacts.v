(** The sample histories of Spec/JudgerSamples.v are histories of the judger. *)
From Coq Require Import ZArith Bool List String Lia.
From Verif.Base Require Import CInt CStr.
From Verif.Model Require Import Config Runner Seccomp Child Argtable Main Messages.
From Verif.Model Require Import Timeout Judger.
From Verif.Spec Require Import Verdict RunSpec TimeoutSpec JudgerSpec Samples JudgerSamples OutputSpec.
From Verif.Spec Require SandboxSpec Json.
From Verif.Proofs Require OutputProofs.
Import ListNotations.
Open Scope list_scope.
Open Scope Z_scope.

Lemma sample_world_ok bad : world_ok (sample_world bad).
Proof.
  split; [reflexivity|]. split; [reflexivity|]. split; [reflexivity|].
  intros [|[|[|[|n]]]] o E; try (injection E as <-; cbn; auto with arith). destruct n; discriminate.
Qed.

Lemma sample_measurable bad c ops s : In ops [sample_success; sample_forged; sample_failed] ->
  clocks_fit 7 1000000000 (g_t s) -> measurable (sample_world bad) (Ran c ops s).
Proof.
  intros I F. split; [|split]; [| |exact F].
  - intros d H. cbn in I. repeat destruct I as [<-|I]; try (destruct I); cbn in H; intuition discriminate.
  - intros ru H.
    assert (ru = sample_usage) as -> by (cbn in I; repeat destruct I as [<-|I]; try (destruct I); cbn in H; intuition congruence).
    vm_compute. intuition discriminate.
Qed.

Definition sample_config_of : option config :=
  match main_ 20 false sample_argv with Some (Val (Run c)) => Some c | _ => None end.

(** What to compute for a history. *)
Definition sample_run (bad : option nat) (ops : list gop) : option (config * gstate * result) :=
  match sample_config_of with
  | Some c =>
      match gexec (sample_world bad) c (ginit (sample_world bad)) ops with
      | Some s =>
          match ppc (g_t s), refusal (sample_world bad) c, undefined_in (sample_world bad) c s with
          | PReturned (Val r), None, false => Some (c, s, r)
          | _, _, _ => None
          end
      | None => None
      end
  | None => None
  end.

Lemma sample_judger bad ops c s r : sample_run bad ops = Some (c, s, r) ->
  exists t, judger (sample_world bad) sample_argv (Ran c ops s) (Prints t 0) /\ Json.json_text false t (result_object r).
Proof.
  unfold sample_run, sample_config_of. intros H.
  destruct (main_ 20 false sample_argv) as [[[| | |c']|]|] eqn:M; try discriminate H.
  destruct (gexec _ _ _ ops) as [s'|] eqn:E; [|discriminate H].
  destruct (ppc (g_t s')) as [| | | | | | | | |[r'|]] eqn:P; try discriminate H.
  destruct (refusal _ _) eqn:R; [discriminate H|]. destruct (undefined_in _ _ _) eqn:U; [discriminate H|].
  injection H as <- <- <-. exists (print_result r'). split; [|apply OutputProofs.result_text].
  change 0 with (exit_status (Run c')). apply judger_ran; try assumption. exists 20%nat. exact M.
Qed.

(** The parts of a sample that the examples show. *)
Definition sample_shows (bad : option nat) (ops : list gop) (r : result) : bool :=
  match sample_run bad ops with
  | Some (c, s, r') =>
      (cpu_time r' =? cpu_time r) && (real_time r' =? real_time r) && (memory r' =? memory r) && (signal r' =? signal r) &&
      (exit_code r' =? exit_code r) && (error r' =? error r) && (verdict r' =? verdict r) &&
      (mono (g_t s) - 7 <=? 1000000000)
  | None => false
  end.
Lemma sample_ok bad ops r : In ops [sample_success; sample_forged; sample_failed] -> sample_shows bad ops r = true ->
  exists c s t, judger (sample_world bad) sample_argv (Ran c ops s) (Prints t 0) /\ Json.json_text false t (result_object r) /\
    measurable (sample_world bad) (Ran c ops s) /\ sample_config_of = Some c.
Proof.
  intros I H. unfold sample_shows in H. destruct (sample_run bad ops) as [[[c s] r']|] eqn:E; [|discriminate].
  assert (r' = r /\ mono (g_t s) - 7 <= 1000000000) as (-> & F).
  { clear E I. rewrite !andb_true_iff in H. destruct H as (((((((H1 & H2) & H3) & H4) & H5) & H6) & H7) & H8).
    destruct r, r'. cbn in *. split; [f_equal; lia|lia]. }
  destruct (sample_judger bad ops c s r E) as (t & J & Jt). exists c, s, t. split; [exact J|]. split; [exact Jt|].
  split; [apply sample_measurable; [exact I|]|].
  - unfold clocks_fit. change (1000000 * 2 ^ 50) with 1125899906842624000000. lia.
  - unfold sample_run in E. destruct sample_config_of as [c'|]; [|discriminate].
    destruct (gexec _ _ _ ops) as [s'|]; [|discriminate]. destruct (ppc (g_t s')) as [| | | | | | | | |[r'|]]; try discriminate.
    destruct (refusal _ _); [discriminate|]. destruct (undefined_in _ _ _); [discriminate|]. injection E as <- _ _. reflexivity.
Qed.

From Verif.Spec Require Import CmdLine MessageSpec.
Lemma sample_c_string : Forall c_string sample_words.
Proof.
  apply Forall_forall. intros w I H. unfold sample_words in I. cbn [map] in I.
  repeat (destruct I as [<-|I]; [vm_compute in H; intuition discriminate|]). destruct I.
Qed.
Lemma sample_short : Forall short sample_words.
Proof.
  apply Forall_forall. intros w I. unfold sample_words in I. cbn [map] in I. unfold short.
  repeat (destruct I as [<-|I]; [vm_compute; discriminate|]). destruct I.
Qed.
