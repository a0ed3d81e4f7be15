(** The sample calls of Spec/CallerSamples.v meet the hypotheses of C80. *)
From Coq Require Import ZArith Bool List Ascii String Lia.
From Verif.Base Require Import CInt CStr.
From Verif.Model Require Import Config Runner Seccomp Child Argtable Main Messages.
From Verif.Model Require Import Timeout Judger Python PythonDecode NodeBinding Callers.
From Verif.Spec Require Import Verdict RunSpec TimeoutSpec JudgerSpec Samples JudgerSamples OutputSpec.
From Verif.Spec Require Import IntText CmdLine Invocation PythonSpec NodeSpec CallerSamples.
From Verif.Spec Require SandboxSpec Json.
From Verif.Proofs Require Import JudgerSampleFacts.
From Verif.Proofs Require OutputProofs PythonOutcome NodeOutput NodeProofs.
Import ListNotations.
Open Scope list_scope.
Open Scope Z_scope.

Definition run_on (bad : option nat) (argv : list str) (ops : list gop) : option (config * gstate * result) :=
  match main_ 40 false argv with
  | Some (Val (Run c)) =>
      match gexec (sample_world bad) c (ginit (sample_world bad)) ops with
      | Some s =>
          match ppc (g_t s), refusal (sample_world bad) c, undefined_in (sample_world bad) c s with
          | PReturned (Val r), None, false => Some (c, s, r)
          | _, _, _ => None
          end
      | None => None
      end
  | _ => None
  end.
Lemma run_on_judger bad argv ops c s r : run_on bad argv ops = Some (c, s, r) ->
  judger (sample_world bad) argv (Ran c ops s) (Prints (print_result r) 0).
Proof.
  unfold run_on. intros H.
  destruct (main_ 40 false argv) as [[[| | |c']|]|] eqn:M; try discriminate H.
  destruct (gexec _ _ _ ops) as [s'|] eqn:E; [|discriminate H].
  destruct (ppc (g_t s')) as [| | | | | | | | |[r'|]] eqn:P; try discriminate H.
  destruct (refusal _ _) eqn:R; [discriminate H|]. destruct (undefined_in _ _ _) eqn:U; [discriminate H|].
  injection H as <- <- <-. change 0 with (exit_status (Run c')). apply judger_ran; try assumption. exists 40%nat. exact M.
Qed.
Definition on_shows (bad : option nat) (argv : option (list str)) (ops : list gop) (r : result) : bool :=
  match argv with
  | Some argv =>
    match run_on bad argv ops with
    | Some (c, s, r') =>
        (cpu_time r' =? cpu_time r) && (real_time r' =? real_time r) && (memory r' =? memory r) && (signal r' =? signal r) &&
        (exit_code r' =? exit_code r) && (error r' =? error r) && (verdict r' =? verdict r) &&
        (mono (g_t s) - 7 <=? 1000000000)
    | None => false
    end
  | None => false
  end.
Lemma on_ok bad a ops r : In ops [sample_success; sample_forged; sample_failed] -> on_shows bad a ops r = true ->
  exists argv c s, a = Some argv /\ judger (sample_world bad) argv (Ran c ops s) (Prints (print_result r) 0) /\
    measurable (sample_world bad) (Ran c ops s).
Proof.
  intros I H. unfold on_shows in H. destruct a as [argv|]; [|discriminate].
  destruct (run_on bad argv ops) as [[[c s] r']|] eqn:E; [|discriminate].
  assert (r' = r /\ mono (g_t s) - 7 <= 1000000000) as (-> & F).
  { clear E I. rewrite !andb_true_iff in H. destruct H as (((((((H1 & H2) & H3) & H4) & H5) & H6) & H7) & H8).
    destruct r, r'. cbn in *. split; [f_equal; lia|lia]. }
  exists argv, c, s. split; [reflexivity|]. split; [apply run_on_judger, E|].
  apply sample_measurable; [exact I|]. unfold clocks_fit. change (1000000 * 2 ^ 50) with 1125899906842624000000. lia.
Qed.

Lemma py_sample_passes : passes (py_vars py_sample) py_sample.
Proof.
  split; [|split; [|split; [reflexivity|split; reflexivity]]].
  - intros n z I. unfold ints_of in I. cbn [In] in I. repeat (destruct I as [I|I]; [injection I as <- <-; reflexivity|]). destruct I.
  - intros n z I. unfold strs_of in I. cbn [In] in I. repeat (destruct I as [I|I]; [injection I as <- <-; reflexivity|]). destruct I.
Qed.
Lemma usable_lit s : s <> [] -> existsb (aeqb NUL) s = false -> usable s.
Proof.
  intros N E. split; [exact N|]. intros I. assert (existsb (aeqb NUL) s = true) as X; [|congruence].
  apply existsb_exists. exists NUL. split; [exact I|reflexivity].
Qed.
Lemma py_sample_valid : valid py_sample.
Proof.
  split; [|split; [|split; [|split; [|split; [|split]]]]].
  - intros n z I. cbn [ints_of In] in I. repeat (destruct I as [I|I]; [injection I as _ <-; vm_compute; split; discriminate|]). destruct I.
  - intros n s I. cbn [strs_of In] in I. repeat (destruct I as [I|I]; [injection I as _ <-; apply usable_lit; [discriminate|reflexivity]|]). destruct I.
  - constructor; [|constructor]. apply usable_lit; [discriminate|reflexivity].
  - constructor; [|constructor]. apply usable_lit; [discriminate|reflexivity].
  - cbn; lia.
  - cbn; lia.
  - apply usable_lit; [discriminate|reflexivity].
Qed.

Lemma py_sample_runs : exists c s,
  python_calls (sample_world None) [] [] (py_vars py_sample) (Ran c sample_success s)
    (Returns (result_object (mkResult 80 120 1536000 0 0 0 0))) /\
  measurable (sample_world None) (Ran c sample_success s).
Proof.
  destruct (on_ok None (command (py_vars py_sample)) sample_success (mkResult 80 120 1536000 0 0 0 0)) as (argv & c & s & A & J & M).
  { cbn; auto. } { vm_compute. reflexivity. }
  exists c, s. split; [|exact M]. eapply python_starts; [exact A|exact J|discriminate|].
  apply PythonOutcome.decodes_result. left. split; [reflexivity|]. split; [constructor|reflexivity].
Qed.

Lemma js_sample_ok : object_of (js_object js_sample) js_sample /\ env_with_args (js_object js_sample) /\ plain_call js_sample /\ acceptable js_sample.
Proof.
  assert (PL : forall s, forallb shell_neutral s = true -> (List.length s <= 254)%nat -> plain_text s).
  { intros s F L. split; [|exact L]. apply Forall_forall. intros x I. rewrite forallb_forall in F. apply F in I.
    unfold shell_neutral in I. unfold plain_char. rewrite !orb_true_iff, !andb_true_iff, !Nat.leb_le in I.
    destruct I as [[[I|I]|I]|I]; [tauto|tauto|tauto|]. right; right; right.
    apply existsb_exists in I. destruct I as (y & Iy & E). apply aeqb_eq in E. subst. exact Iy. }
  split; [|split; [|split]].
  - split; [|split; [|split]].
    + intros n z I. unfold k_ints in I. cbn [In] in I. repeat (destruct I as [I|I]; [injection I as <- <-; reflexivity|]). destruct I.
    + intros n z I. unfold k_strs in I. cbn [In] in I. repeat (destruct I as [I|I]; [injection I as <- <-; reflexivity|]). destruct I.
    + right. eexists. split; [reflexivity|]. repeat constructor.
    + right. eexists. split; [reflexivity|]. repeat constructor.
  - right. eexists. reflexivity.
  - split; [|split].
    + intros n s I. unfold k_strs in I. cbn [In js_sample k_input_path k_output_path k_error_path k_exe_path k_log_path k_seccomp_rule_name] in I.
      repeat (destruct I as [I|I]; [first [discriminate I|injection I as _ <-; apply PL; [reflexivity|vm_compute; lia]]|]). destruct I.
    + constructor; [|constructor]. apply PL; [reflexivity|vm_compute; lia].
    + constructor; [|constructor]. apply PL; [reflexivity|vm_compute; lia].
  - split; [|split; [|split; [|split; [|split; [|split]]]]].
    + intros n z I. unfold k_ints in I. cbn in I. repeat (destruct I as [I|I]; [first [discriminate I|injection I as _ <-; vm_compute; split; discriminate]|]). destruct I.
    + intros n s I. unfold k_strs in I. cbn [In js_sample k_input_path k_output_path k_error_path k_exe_path k_log_path k_seccomp_rule_name] in I.
      repeat (destruct I as [I|I]; [first [discriminate I|injection I as _ <-; discriminate]|]). destruct I.
    + constructor; [discriminate|constructor].
    + constructor; [discriminate|constructor].
    + cbn; lia.
    + cbn; lia.
    + discriminate.
Qed.

Definition js_argv : option (list str) :=
  match node_command (js_object js_sample) with
  | NVal cmd => match shell cmd with Some [argv] => Some argv | _ => None end
  | _ => None
  end.
Lemma js_sample_runs : exists c s,
  node_calls (sample_world None) (lit "{hello}") (js_object js_sample) (Ran c sample_success s)
    (Some (NodeReturns (lit "{hello}") (result_object (mkResult 80 120 1536000 0 0 0 0)))) /\
  measurable (sample_world None) (Ran c sample_success s).
Proof.
  destruct (on_ok None js_argv sample_success (mkResult 80 120 1536000 0 0 0 0)) as (argv & c & s & A & J & M).
  { cbn; auto. } { vm_compute. reflexivity. }
  exists c, s. split; [|exact M]. unfold js_argv in A.
  destruct (node_command (js_object js_sample)) as [cmd| |] eqn:Ec; try discriminate A.
  destruct (shell cmd) as [[|argv' [|? ?]]|] eqn:Es; try discriminate A. injection A as ->.
  eapply node_starts; [exact Ec|exact Es| |exact J|discriminate|].
  - destruct js_sample_ok as (O & E & P & _). destruct (NodeProofs.node_started _ _ O E P) as (cmd' & X1 & X2).
    assert (cmd' = cmd) as -> by congruence. rewrite Es in X2. injection X2 as ->. reflexivity.
  - apply NodeOutput.node_result_clean; [|vm_compute; reflexivity|reflexivity].
    intros I. cbn in I. repeat (destruct I as [I|I]; [discriminate I|]). exact I.
Qed.
