(** C80: from a call of a binding to the verdict it returns. *)
From Coq Require Import ZArith Bool List Ascii String.
From Verif.Base Require Import CInt CStr.
From Verif.Model Require Import Config Runner Child Timeout Judger Python PythonDecode NodeBinding Messages Callers.
From Verif.Spec Require Import Verdict RunSpec TimeoutSpec JudgerSpec CallerSpec.
From Verif.Spec Require Import CmdLine Invocation OutputSpec PythonSpec NodeSpec JudgerSamples CallerSamples NodeEndSamples.
From Verif.Spec Require Json.
From Verif.Proofs Require Import JudgerClaims JudgerSampleFacts CallerProofs NodeEnds CallerSampleFacts NodeEndFacts.
Import ListNotations.
Open Scope list_scope.
Open Scope Z_scope.

(** C80, Python.  Every call of run() with valid arguments that comes to an end, in every world and for
    every schedule: it returns the result of a judger that worked with the limits, files, arguments and
    rule asked for, and that result reports truly on what happened to the program (see [reports]); or, if
    and only if anything was written to standard error or anything but blanks to the judger's standard
    output, it raises. *)
Theorem C80_python :
  forall W vars p, passes vars p -> forall own err h o, valid p -> world_ok W -> measurable W h ->
  python_calls W own err vars h o ->
  exists c, asks_for p c /\
  ((err = [] /\ Json.blank own /\ exists r, o = Returns (result_object r) /\ reports W c h r) \/
   ((err <> [] \/ ~ Json.blank own) /\ o = Raises)).
Proof. exact python_reports. Qed.
Print Assumptions C80_python.

(** A process is started for a Python call only if its arguments are valid, the judger is root and the
    limits are acceptable, and it is a process for the configuration asked for; the program itself is
    executed only in its complete sandbox. *)
Theorem C80_python_only :
  forall W vars p, passes vars p -> forall argv c ops s out, world_ok W -> command vars = Some argv ->
  judger W argv (Ran c ops s) out ->
  valid p /\ asks_for p c /\ w_uid W = 0 /\ limits_accepted c /\ (In Execs ops -> sandboxed W c).
Proof. exact python_only. Qed.
Print Assumptions C80_python_only.

(** A valid Python call can always come to an end, in every world where children are not reaped by
    themselves, without any call of the judger itself failing. *)
Theorem C80_python_total :
  forall W vars p, passes vars p -> valid p -> world_ok W -> w_autoreap W = false ->
  exists argv h out, command vars = Some argv /\ judger W argv h out /\ no_failure h.
Proof. exact python_total. Qed.
Print Assumptions C80_python_total.

(** C80, Node.  The same of the Node function for objects of plain text with "args" whenever there is "env":
    what it returns is the result of a judger that did what the object requests, and reports truly; what
    the program wrote before it is returned beside it. *)
Theorem C80_node :
  forall W obj p, object_of obj p -> env_with_args obj -> plain_call p ->
  forall own h o, acceptable p -> nul_free own -> world_ok W -> measurable W h ->
  node_calls W own obj h o ->
  exists c r, requests p c /\ reports W c h r /\
  (Z.of_nat (List.length (own ++ print_result r)) < 2 ^ 31 -> o = Some (NodeReturns own (result_object r))).
Proof. exact node_reports. Qed.
Print Assumptions C80_node.

Theorem C80_node_only :
  forall W obj p, object_of obj p -> env_with_args obj -> plain_call p ->
  forall cmd argv c ops s out, world_ok W -> node_command obj = NVal cmd -> shell cmd = Some [argv] ->
  judger W argv (Ran c ops s) out ->
  acceptable p /\ requests p c /\ w_uid W = 0 /\ limits_accepted c /\ (In Execs ops -> sandboxed W c).
Proof. exact node_only. Qed.
Print Assumptions C80_node_only.

Theorem C80_node_total :
  forall W obj p, object_of obj p -> env_with_args obj -> plain_call p ->
  acceptable p -> world_ok W -> w_autoreap W = false ->
  exists cmd argv h out, node_command obj = NVal cmd /\ shell cmd = Some [argv] /\ judger W argv h out /\ no_failure h.
Proof. exact node_total. Qed.
Print Assumptions C80_node_total.

(** ** The hypotheses are met: a Python and a Node call whose program is judged SUCCESS. *)
Example C80_python_sample : exists c s,
  passes (py_vars py_sample) py_sample /\ valid py_sample /\ world_ok (sample_world None) /\
  w_autoreap (sample_world None) = false /\
  python_calls (sample_world None) [] [] (py_vars py_sample) (Ran c sample_success s)
    (Returns (result_object (mkResult 80 120 1536000 0 0 0 0))) /\
  measurable (sample_world None) (Ran c sample_success s).
Proof.
  destruct py_sample_runs as (c & s & R & M). exists c, s.
  exact (conj py_sample_passes (conj py_sample_valid (conj (sample_world_ok None) (conj eq_refl (conj R M))))).
Qed.
Example C80_node_sample : exists c s,
  object_of (js_object js_sample) js_sample /\ env_with_args (js_object js_sample) /\ plain_call js_sample /\ acceptable js_sample /\
  node_calls (sample_world None) (lit "{hello}") (js_object js_sample) (Ran c sample_success s)
    (Some (NodeReturns (lit "{hello}") (result_object (mkResult 80 120 1536000 0 0 0 0)))) /\
  measurable (sample_world None) (Ran c sample_success s).
Proof.
  destruct js_sample_runs as (c & s & R & M). exists c, s. destruct js_sample_ok as (A & B & C & D).
  exact (conj A (conj B (conj C (conj D (conj R M))))).
Qed.

(** ** Node calls that start no judger *)

(** A number parameter of another type: the call ends with an exception, nothing is run, and nothing else can happen. *)
Theorem C80_node_wrong_type : forall W own obj n,
  In n ["max_cpu_time"; "max_real_time"; "max_memory"; "memory_limit_check_only"; "max_stack"; "max_process_number";
        "max_output_size"; "uid"; "gid"]%string ->
  obj n <> JSNull -> (forall z, obj n <> JSNum z) ->
  forall h o, node_calls W own obj h o <-> h = NothingRun /\ o = None.
Proof. exact ends_wrong_type. Qed.
Print Assumptions C80_node_wrong_type.
Example C80_node_wrong_type_case :
  let obj := fun n : string => if String.eqb n "uid" then JSStr (lit "0") else JSNull in
  In "uid"%string ["max_cpu_time"; "max_real_time"; "max_memory"; "memory_limit_check_only"; "max_stack"; "max_process_number";
        "max_output_size"; "uid"; "gid"]%string /\ obj "uid"%string <> JSNull /\ forall z, obj "uid"%string <> JSNum z.
Proof. cbn. split; [tauto|]. split; [discriminate|]. intros z X. discriminate X. Qed.

(** Parameters of the right types never end in an exception ... *)
Theorem C80_node_no_exception : forall W own obj p h, object_of obj p -> env_with_args obj -> ~ node_calls W own obj h None.
Proof. exact ends_no_exception. Qed.
Print Assumptions C80_node_no_exception.

(** ... but not always well: with a string of 255 bytes or more the behaviour of the process is undefined before anything is run;
    and an environment without arguments is an exception although its type is right. *)
Theorem C80_node_overflow_refuted : forall W own obj p, object_of obj p -> env_with_args obj -> has_long p ->
  forall h o, node_calls W own obj h o <-> h = NothingRun /\ o = Some NodeUndefined.
Proof. exact ends_overflow. Qed.
Print Assumptions C80_node_overflow_refuted.
Theorem C80_node_env_alone_refuted : forall W own obj p l,
  object_of obj p -> obj "env"%string = JSArr l -> obj "args"%string = JSNull -> ~ has_long p ->
  forall h o, node_calls W own obj h o <-> h = NothingRun /\ o = None.
Proof. exact ends_env_alone. Qed.
Print Assumptions C80_node_env_alone_refuted.
Example C80_node_overflow_case : object_of (js_object js_long) js_long /\ env_with_args (js_object js_long) /\ has_long js_long.
Proof. exact js_long_ok. Qed.
Example C80_node_env_alone_case : object_of (js_object_alone js_alone) js_alone /\
  js_object_alone js_alone "env"%string = JSArr [JSStr (lit "PATH=/bin")] /\ js_object_alone js_alone "args"%string = JSNull /\ ~ has_long js_alone.
Proof. exact js_alone_ok. Qed.
