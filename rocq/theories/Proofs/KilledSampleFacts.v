(** Samples: the judger is killed while it waits for the program. *)
From Coq Require Import ZArith Bool List Ascii String Lia.
From Verif.Base Require Import CInt CStr.
From Verif.Model Require Import Config Runner Child Argtable Main Messages.
From Verif.Model Require Import Timeout Judger Python PythonDecode NodeBinding Killed.
From Verif.Spec Require Import Verdict RunSpec TimeoutSpec JudgerSpec CallerSpec.
From Verif.Spec Require Import CmdLine Invocation OutputSpec PythonSpec NodeSpec.
From Verif.Spec Require Json Utf8.
From Verif.Proofs Require Import MainProofs CommandClaims JudgerProofs JudgerClaims CallerProofs.
From Verif.Spec Require Import JudgerSamples CallerSamples KilledSamples.
From Verif.Proofs Require Import JudgerSampleFacts CallerSampleFacts KilledProofs.
From Verif.Proofs Require JsonProofs OutputProofs PythonClaims PythonOutcome NodeProofs NodeClaims NodeOutput ChildClaims.
Import ListNotations.
Open Scope list_scope.


Definition until (argv : option (list str)) (ops : list gop) : option (list str * config * gstate) :=
  match argv with
  | Some argv =>
    match main_ 40 false argv with
    | Some (Val (Run c)) =>
      match gexec (sample_world None) c (ginit (sample_world None)) ops, refusal (sample_world None) c with
      | Some s, None => if undefined_in (sample_world None) c s then None else Some (argv, c, s)
      | _, _ => None
      end
    | _ => None
    end
  | None => None
  end.
Lemma until_killed a ops argv c s : until a ops = Some (argv, c, s) -> a = Some argv /\ killed (sample_world None) argv (Ran c ops s) [] [].
Proof.
  unfold until. destruct a as [a|]; [|discriminate]. destruct (main_ 40 false a) as [[[| | |c']|]|] eqn:M; try discriminate.
  destruct (gexec _ _ _ ops) as [s'|] eqn:E; [|discriminate]. destruct (refusal _ _) eqn:R; [discriminate|].
  destruct (undefined_in _ _ _) eqn:U; [discriminate|]. intros X. injection X as <- <- <-. split; [reflexivity|].
  apply killed_working; try assumption; [exists 40%nat; exact M|discriminate].
Qed.
Definition still_running (x : option (list str * config * gstate)) : bool :=
  match x with
  | Some (_, c, s) => match proc_st (g_t s) with Running => true | _ => false end && g_program s && negb (kill_pending (g_t s)) &&
      (max_real_time c =? 2000)%Z && (mono (g_t s) - 7 <=? 1000000000)%Z
  | None => false
  end.
Lemma sample_killed a : still_running (until a sample_running) = true -> exists argv c s, a = Some argv /\
  killed (sample_world None) argv (Ran c sample_running s) [] [] /\ measurable (sample_world None) (Ran c sample_running s) /\
  proc_st (g_t s) = Running /\ g_program s = true /\ kill_pending (g_t s) = false /\ max_real_time c = 2000%Z.
Proof.
  intros H. destruct (until a sample_running) as [[[argv c] s]|] eqn:U; [|discriminate H]. destruct (until_killed _ _ _ _ _ U) as (A & K).
  exists argv, c, s. split; [exact A|]. split; [exact K|]. clear U K. cbn [still_running] in H. rewrite !andb_true_iff in H. destruct H as ((((H1 & H2) & H3) & H4) & H5).
  split.
  { split; [|split].
    - intros d X. cbn in X. repeat (destruct X as [X|X]; [discriminate X|]). exact X.
    - intros ru X. cbn in X. repeat (destruct X as [X|X]; [discriminate X|]). destruct X.
    - unfold clocks_fit. change (w_mono (sample_world None)) with 7%Z. change (w_wall (sample_world None)) with 1000000000%Z.
      change (1000000 * 2 ^ 50)%Z with 1125899906842624000000%Z. lia. }
  destruct (proc_st (g_t s)); try discriminate H1. split; [reflexivity|]. split; [exact H2|].
  split; [destruct (kill_pending (g_t s)); [discriminate H3|reflexivity]|lia].
Qed.

Lemma py_killed : exists argv c s, command (py_vars py_sample) = Some argv /\
  killed (sample_world None) argv (Ran c sample_running s) [] [] /\ measurable (sample_world None) (Ran c sample_running s) /\
  proc_st (g_t s) = Running /\ g_program s = true /\ kill_pending (g_t s) = false /\ max_real_time c = 2000%Z.
Proof. apply sample_killed. vm_compute. reflexivity. Qed.
Lemma js_killed : exists cmd argv c s, node_command (js_object js_sample) = NVal cmd /\ shell cmd = Some [argv] /\
  hd_error argv = Some (lit "/usr/lib/judger/libjudger.so") /\
  killed (sample_world None) argv (Ran c sample_running s) [] [] /\ measurable (sample_world None) (Ran c sample_running s).
Proof.
  destruct (sample_killed js_argv) as (argv & c & s & A & K & M & _); [vm_compute; reflexivity|]. unfold js_argv in A.
  destruct (node_command (js_object js_sample)) as [cmd| |] eqn:Ec; try discriminate A.
  destruct (shell cmd) as [[|argv' [|? ?]]|] eqn:Es; try discriminate A. injection A as ->.
  exists cmd, argv, c, s. split; [reflexivity|]. split; [exact Es|]. split; [|split; [exact K|exact M]].
  destruct js_sample_ok as (O & E & P & _). destruct (NodeProofs.node_started _ _ O E P) as (cmd' & X1 & X2).
  assert (cmd' = cmd) as -> by congruence. rewrite Es in X2. injection X2 as ->. reflexivity.
Qed.

(** A verdict made up by the program. *)
Lemma python_forged r : exists c s, measurable (sample_world None) (Ran c sample_running s) /\
  python_killed (sample_world None) (print_result r) [] (py_vars py_sample) (Ran c sample_running s) [] [] (Returns (result_object r)).
Proof.
  destruct py_killed as (argv & c & s & A & K & M & _). exists c, s. split; [exact M|]. eapply python_killed_in; [exact A|exact K|discriminate|].
  rewrite app_nil_r. apply (PythonOutcome.decodes_result [] [] r). left. split; [reflexivity|]. split; [constructor|reflexivity].
Qed.
Lemma node_forged r : (Z.of_nat (List.length (print_result r)) < 2 ^ 31)%Z -> exists c s, measurable (sample_world None) (Ran c sample_running s) /\
  node_killed (sample_world None) (print_result r) (js_object js_sample) (Ran c sample_running s) [] [] (NodeReturns [] (result_object r)).
Proof.
  intros L. destruct js_killed as (cmd & argv & c & s & Ec & Es & Eh & K & M). exists c, s. split; [exact M|].
  eapply node_killed_in; [exact Ec|exact Es|exact Eh|exact K|discriminate|].
  rewrite app_nil_r. apply (NodeOutput.node_result_clean [] r); [intros []|exact L|reflexivity].
Qed.
Lemma node_crashes : exists c s, measurable (sample_world None) (Ran c sample_running s) /\
  node_killed (sample_world None) [] (js_object js_sample) (Ran c sample_running s) [] [] NodeUndefined.
Proof.
  destruct js_killed as (cmd & argv & c & s & Ec & Es & Eh & K & M). exists c, s. split; [exact M|].
  eapply node_killed_in; [exact Ec|exact Es|exact Eh|exact K|discriminate|].
  apply NodeOutput.node_no_brace; [intros []|reflexivity].
Qed.

(** The limit of 2 s and any time [T] (in microseconds). *)
Lemma outlives T : exists argv c s later s', command (py_vars py_sample) = Some argv /\
  killed (sample_world None) argv (Ran c sample_running s) later [] /\
  max_real_time c = 2000%Z /\ alone (sample_world None) c s later = Some s' /\
  proc_st (g_t s') = Running /\ g_program s' = true /\ kill_pending (g_t s') = false /\ (T <= mono (g_t s') - mono (g_t s))%Z.
Proof.
  destruct py_killed as (argv & c & s & A & K & M & Rn & Pr & Q & Mx). destruct (longer _ _ _ _ _ _ (Z.max 1 T) ltac:(lia) K) as (K' & s' & Al & Mo & Ps & Pg).
  exists argv, c, s, [Sys (Tick (Z.max 1 T))], s'. split; [exact A|]. split; [exact K'|]. split; [exact Mx|]. split; [exact Al|].
  split; [congruence|]. split; [congruence|]. split; [|lia].
  rewrite wait_alone in Al by lia. injection Al as <-. exact Q.
Qed.

(** A report that is cut: nothing is returned. *)
Lemma py_cut : exists c s r written rest, print_result r = written ++ rest /\ written <> [] /\ rest <> [] /\
  measurable (sample_world None) (Ran c sample_success s) /\
  python_killed (sample_world None) [] [] (py_vars py_sample) (Ran c sample_success s) [] written Raises.
Proof.
  destruct (on_ok None (command (py_vars py_sample)) sample_success (mkResult 80 120 1536000 0 0 0 0)) as (argv & c & s & A & J & M).
  { cbn; auto. } { vm_compute. reflexivity. }
  exists c, s, (mkResult 80 120 1536000 0 0 0 0). eexists (firstn 40 _), (skipn 40 _). split; [symmetry; apply firstn_skipn|].
  split; [vm_compute; discriminate|]. split; [vm_compute; discriminate|]. split; [exact M|].
  eapply python_killed_in; [exact A|eapply killed_reporting; [exact J|symmetry; apply firstn_skipn|discriminate]|discriminate|].
  apply decodes_bad; [reflexivity|]. intros (_ & v & X). revert X.
  apply (cut_not_json true [] _ (skipn 40 (print_result (mkResult 80 120 1536000 0 0 0 0))) (mkResult 80 120 1536000 0 0 0 0));
    [symmetry; apply firstn_skipn|vm_compute; discriminate|vm_compute; discriminate].
Qed.

(** Killed when everything has been written. *)
Lemma py_late : exists c s r, passes (py_vars py_sample) py_sample /\ valid py_sample /\ world_ok (sample_world None) /\
  measurable (sample_world None) (Ran c sample_success s) /\ Json.blank [] /\
  python_killed (sample_world None) [] [] (py_vars py_sample) (Ran c sample_success s) [] (print_result r) (Returns (result_object r)).
Proof.
  destruct (on_ok None (command (py_vars py_sample)) sample_success (mkResult 80 120 1536000 0 0 0 0)) as (argv & c & s & A & J & M).
  { cbn; auto. } { vm_compute. reflexivity. }
  exists c, s, (mkResult 80 120 1536000 0 0 0 0). split; [exact py_sample_passes|]. split; [exact py_sample_valid|]. split; [exact (sample_world_ok None)|].
  split; [exact M|]. split; [constructor|].
  eapply python_killed_in; [exact A|eapply killed_reporting; [exact J|symmetry; apply app_nil_r|discriminate]|discriminate|].
  apply PythonOutcome.decodes_result. left. split; [reflexivity|]. split; [constructor|reflexivity].
Qed.
Lemma js_late : exists c s r, object_of (js_object js_sample) js_sample /\ env_with_args (js_object js_sample) /\
  plain_call js_sample /\ acceptable js_sample /\ nul_free (lit "{hello}") /\ measurable (sample_world None) (Ran c sample_success s) /\
  node_killed (sample_world None) (lit "{hello}") (js_object js_sample) (Ran c sample_success s) [] (print_result r)
    (NodeReturns (lit "{hello}") (result_object r)).
Proof.
  destruct (on_ok None js_argv sample_success (mkResult 80 120 1536000 0 0 0 0)) as (argv & c & s & A & J & M).
  { cbn; auto. } { vm_compute. reflexivity. }
  exists c, s, (mkResult 80 120 1536000 0 0 0 0). destruct js_sample_ok as (O & E & P & Ac).
  assert (nul_free (lit "{hello}")) as Nf by (intros I; cbn in I; repeat (destruct I as [I|I]; [discriminate I|]); exact I).
  split; [exact O|]. split; [exact E|]. split; [exact P|]. split; [exact Ac|]. split; [exact Nf|]. split; [exact M|]. unfold js_argv in A.
  destruct (node_command (js_object js_sample)) as [cmd| |] eqn:Ec; try discriminate A.
  destruct (shell cmd) as [[|argv' [|? ?]]|] eqn:Es; try discriminate A. injection A as ->.
  eapply node_killed_in; [exact Ec|exact Es| |eapply killed_reporting; [exact J|symmetry; apply app_nil_r|discriminate]|discriminate|].
  - destruct (NodeProofs.node_started _ _ O E P) as (cmd' & X1 & X2). assert (cmd' = cmd) as -> by congruence. rewrite Es in X2. injection X2 as ->. reflexivity.
  - apply NodeOutput.node_result_clean; [exact Nf|vm_compute; reflexivity|reflexivity].
Qed.
