(** C88: the judger is killed at any moment.  [killed W argv h later written] says that this happens when [h] has
    happened and the bytes [written] of its report have left it; then [later] happens.  [own] is what others (the
    program) wrote to the judger's standard output. *)
From Coq Require Import ZArith Bool List Ascii String.
From Verif.Base Require Import CInt CStr.
From Verif.Model Require Import Config Runner Child Timeout Judger Python PythonDecode NodeBinding Messages Killed.
From Verif.Spec Require Import Verdict RunSpec TimeoutSpec JudgerSpec CallerSpec.
From Verif.Spec Require Import CmdLine Invocation OutputSpec PythonSpec NodeSpec JudgerSamples CallerSamples KilledSamples.
From Verif.Spec Require Json.
From Verif.Proofs Require Import JudgerClaims JudgerSampleFacts CallerSampleFacts KilledProofs KilledSampleFacts.
Import ListNotations.
Open Scope list_scope.
Open Scope Z_scope.

(** What a Python call still returns when its judger was killed is the true result of a finished history, or
    a text that the program wrote to the judger's standard output and the judger added nothing. *)
Theorem C88_python :
  forall W vars p, passes vars p -> forall own err h later written v, valid p -> world_ok W -> measurable W h ->
  python_killed W own err vars h later written (Returns v) ->
  exists c, asks_for p c /\
  ((exists r, v = result_object r /\ reports W c h r) \/ (written = [] /\ ~ Json.blank own /\ Json.json_text true own v)).
Proof. exact python_killed_returns. Qed.
Print Assumptions C88_python.

(** So if nobody but the judger writes there, no false verdict is returned, whenever it is killed. *)
Theorem C88_python_true :
  forall W vars p, passes vars p -> forall own err h later written v, valid p -> world_ok W -> measurable W h -> Json.blank own ->
  python_killed W own err vars h later written (Returns v) ->
  exists c r, asks_for p c /\ v = result_object r /\ reports W c h r.
Proof. exact python_killed_blank. Qed.
Print Assumptions C88_python_true.

(** A part of a report is never taken for one, whatever stands before it. *)
Theorem C88_python_cut :
  forall W vars own err h later written o r rest, python_killed W own err vars h later written o ->
  print_result r = written ++ rest -> written <> [] -> rest <> [] -> o = Raises.
Proof. exact python_cut. Qed.
Print Assumptions C88_python_cut.

(** The Node function: likewise. *)
Theorem C88_node :
  forall W obj p, object_of obj p -> env_with_args obj -> plain_call p ->
  forall own h later written shown v, acceptable p -> nul_free own -> world_ok W -> measurable W h ->
  Z.of_nat (List.length (own ++ written)) < 2 ^ 31 -> node_killed W own obj h later written (NodeReturns shown v) ->
  exists c, requests p c /\
  ((exists r, v = result_object r /\ shown = own /\ reports W c h r) \/
   (written = [] /\ exists text, own = shown ++ text /\ Json.json_text false text v)).
Proof. exact node_killed_returns. Qed.
Print Assumptions C88_node.

Theorem C88_node_cut :
  forall W obj own h later written o r rest, node_killed W own obj h later written o -> nul_free own ->
  Z.of_nat (List.length (own ++ written)) < 2 ^ 31 ->
  print_result r = written ++ rest -> written <> [] -> rest <> [] -> o = NodeAborts own.
Proof. exact node_cut. Qed.
Print Assumptions C88_node_cut.

(** A program that becomes one although its judger is gone: only in the complete sandbox, as root's judger
    with acceptable limits would have executed it. *)
Theorem C88_python_confined :
  forall W vars p, passes vars p -> forall argv c ops s later written, world_ok W -> command vars = Some argv ->
  killed W argv (Ran c ops s) later written ->
  valid p /\ asks_for p c /\ w_uid W = 0 /\ limits_accepted c /\ (In Execs (ops ++ later) -> sandboxed W c).
Proof. exact python_killed_confined. Qed.
Print Assumptions C88_python_confined.
Theorem C88_node_confined :
  forall W obj p, object_of obj p -> env_with_args obj -> plain_call p ->
  forall cmd argv c ops s later written, world_ok W -> node_command obj = NVal cmd -> shell cmd = Some [argv] ->
  killed W argv (Ran c ops s) later written ->
  acceptable p /\ requests p c /\ w_uid W = 0 /\ limits_accepted c /\ (In Execs (ops ++ later) -> sandboxed W c).
Proof. exact node_killed_confined. Qed.
Print Assumptions C88_node_confined.

(** From then on the judger kills nobody. *)
Theorem C88_no_kill :
  forall W c s later s', alone W c s later = Some s' -> kill_pending (g_t s) = false ->
  ~ In (Sys Deliver) later /\ kills (g_t s') = kills (g_t s).
Proof. exact alone_no_kill. Qed.
Print Assumptions C88_no_kill.

(** But a signal it has sent arrives, and a process that was being set up still becomes the program. *)
Theorem C88_sent :
  forall W c s, alive (g_t s) = true -> kill_pending (g_t s) = true -> w_autoreap W = false ->
  exists s', alone W c s [Sys Deliver] = Some s' /\ proc_st (g_t s') = Zombie (Killed 9 false).
Proof. exact delivered. Qed.
Print Assumptions C88_sent.
Theorem C88_starts :
  forall W c s path a v k, g_program s = false -> proc_st (g_t s) = Running -> set_up W c = CExec path a v k ->
  exists s', alone W c s [Execs] = Some s' /\ g_program s' = true /\ proc_st (g_t s') = Running.
Proof. exact starts_late. Qed.
Print Assumptions C88_starts.

(** "The program does not run much longer than the limit of real time" is false if the judger is killed: with
    a limit of 2 s it may still be running after any time. *)
Theorem C88_time_refuted :
  forall T, exists argv c s later s', command (py_vars py_sample) = Some argv /\
  killed (sample_world None) argv (Ran c sample_running s) later [] /\
  max_real_time c = 2000 /\ alone (sample_world None) c s later = Some s' /\
  proc_st (g_t s') = Running /\ g_program s' = true /\ kill_pending (g_t s') = false /\ T <= mono (g_t s') - mono (g_t s).
Proof. exact outlives. Qed.
Print Assumptions C88_time_refuted.

(** "A verdict that is returned comes from the judger" is false: a program that can write to the judger's
    standard output chooses any verdict, if the judger is killed; how the judger ended is not looked at. *)
Theorem C88_python_origin_refuted :
  forall r, exists c s, measurable (sample_world None) (Ran c sample_running s) /\
  python_killed (sample_world None) (print_result r) [] (py_vars py_sample) (Ran c sample_running s) [] [] (Returns (result_object r)).
Proof. exact python_forged. Qed.
Print Assumptions C88_python_origin_refuted.
Theorem C88_node_origin_refuted :
  forall r, Z.of_nat (List.length (print_result r)) < 2 ^ 31 -> exists c s, measurable (sample_world None) (Ran c sample_running s) /\
  node_killed (sample_world None) (print_result r) (js_object js_sample) (Ran c sample_running s) [] [] (NodeReturns [] (result_object r)).
Proof. exact node_forged. Qed.
Print Assumptions C88_node_origin_refuted.

(** "The Node function reports an error when the judger was killed" is false: without any "{" in the output its
    behaviour is undefined, and a judger that is killed in time leaves none. *)
Theorem C88_node_error_refuted : exists c s, measurable (sample_world None) (Ran c sample_running s) /\
  node_killed (sample_world None) [] (js_object js_sample) (Ran c sample_running s) [] [] NodeUndefined.
Proof. exact node_crashes. Qed.
Print Assumptions C88_node_error_refuted.
Theorem C88_node_silent :
  forall W obj own h later o, ~ In "{"%char own -> node_killed W own obj h later [] o -> o = NodeUndefined.
Proof. exact node_killed_undefined. Qed.
Print Assumptions C88_node_silent.

(** Not vacuous: a judger that is killed while it reports, and one that is killed while it waits. *)
Example C88_sample_cut : exists c s r written rest, print_result r = written ++ rest /\ written <> [] /\ rest <> [] /\
  measurable (sample_world None) (Ran c sample_success s) /\
  python_killed (sample_world None) [] [] (py_vars py_sample) (Ran c sample_success s) [] written Raises.
Proof. exact py_cut. Qed.
Example C88_sample_returns : exists c s r, passes (py_vars py_sample) py_sample /\ valid py_sample /\ world_ok (sample_world None) /\
  measurable (sample_world None) (Ran c sample_success s) /\ Json.blank [] /\
  python_killed (sample_world None) [] [] (py_vars py_sample) (Ran c sample_success s) [] (print_result r) (Returns (result_object r)).
Proof. exact py_late. Qed.
Example C88_sample_node : exists c s r, object_of (js_object js_sample) js_sample /\ env_with_args (js_object js_sample) /\
  plain_call js_sample /\ acceptable js_sample /\ nul_free (lit "{hello}") /\ measurable (sample_world None) (Ran c sample_success s) /\
  node_killed (sample_world None) (lit "{hello}") (js_object js_sample) (Ran c sample_success s) [] (print_result r)
    (NodeReturns (lit "{hello}") (result_object r)).
Proof. exact js_late. Qed.
Example C88_sample_waiting : exists argv c s, command (py_vars py_sample) = Some argv /\
  killed (sample_world None) argv (Ran c sample_running s) [] [] /\ measurable (sample_world None) (Ran c sample_running s) /\
  proc_st (g_t s) = Running /\ g_program s = true /\ kill_pending (g_t s) = false /\ max_real_time c = 2000.
Proof. exact py_killed. Qed.
