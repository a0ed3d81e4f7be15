(** C89: when a call of a binding ends.  The caller reads the judger's standard output (Python also its standard
    error) to the end, which comes when no process holds a writing end any more.  [left_over W c s es t]: [t] are
    the processes that are left when the judger has ended in the state [s], after they have done [es] (before or
    since), with their descriptors. *)
From Coq Require Import ZArith Bool List Ascii String.
From Verif.Base Require Import CInt CStr.
From Verif.Model Require Import Config Runner Child Timeout Judger Python NodeBinding Messages Killed Pipes.
From Verif.Spec Require Import JudgerSpec SandboxSpec PipeSpec.
From Verif.Spec Require Import Invocation PythonSpec NodeSpec JudgerSamples CallerSamples PipeSamples.
From Verif.Proofs Require Import CallerSampleFacts PipeProofs PipeSampleFacts.
Import ListNotations.
Open Scope list_scope.

(** A Python call ends with its judger, whatever the program has left behind: nobody else has the pipes, unless
    the process was stopped before it became the program, or a path names one of them. *)
Theorem C89_python :
  forall W vars p, passes vars p -> forall pipe argv c ops s out, world_ok W -> command vars = Some argv ->
  judger W argv (Ran c ops s) out -> (alive (g_t s) = true -> g_program s = true) ->
  pipe_at pipe [1; 2]%nat (w_k0 W) ->
  elsewhere pipe (Some (y_input_path p)) -> elsewhere pipe (Some (y_output_path p)) -> elsewhere pipe (Some (y_error_path p)) ->
  forall es t, left_over W c s es t -> opens_elsewhere pipe es -> at_end pipe t.
Proof. exact python_ends. Qed.
Print Assumptions C89_python.

(** Also if the judger is killed (C88), although the program may go on. *)
Theorem C89_killed :
  forall W vars p, passes vars p -> forall pipe argv c ops s later w s', world_ok W -> command vars = Some argv ->
  killed W argv (Ran c ops s) later w -> alone W c s later = Some s' -> (alive (g_t s') = true -> g_program s' = true) ->
  pipe_at pipe [1; 2]%nat (w_k0 W) ->
  elsewhere pipe (Some (y_input_path p)) -> elsewhere pipe (Some (y_output_path p)) -> elsewhere pipe (Some (y_error_path p)) ->
  forall es t, left_over W c s' es t -> opens_elsewhere pipe es -> at_end pipe t.
Proof. exact python_killed_ends. Qed.
Print Assumptions C89_killed.

(** The Node function likewise; a missing output_path means /dev/stdout, that is, the pipe. *)
Theorem C89_node :
  forall W obj p, object_of obj p -> env_with_args obj -> plain_call p ->
  forall pipe cmd argv c ops s out, world_ok W -> node_command obj = NVal cmd -> shell cmd = Some [argv] ->
  judger W argv (Ran c ops s) out -> (alive (g_t s) = true -> g_program s = true) ->
  pipe_at pipe [1]%nat (w_k0 W) ->
  elsewhere pipe (Some (or_else (k_input_path p) (lit "/dev/stdin"))) -> elsewhere pipe (Some (or_else (k_output_path p) (lit "/dev/stdout"))) ->
  elsewhere pipe (Some (or_else (k_error_path p) (lit "/dev/stderr"))) ->
  forall es t, left_over W c s es t -> opens_elsewhere pipe es -> at_end pipe t.
Proof. exact node_ends. Qed.
Print Assumptions C89_node.

(** Under c_cpp and c_cpp_file_io no process is left, whatever the paths are. *)
Theorem C89_python_single :
  forall W vars p, passes vars p -> forall argv c ops s out nm, world_ok W -> command vars = Some argv ->
  judger W argv (Ran c ops s) out -> alive (g_t s) = false -> y_seccomp_rule_name p = Some nm -> In nm [lit "c_cpp"; lit "c_cpp_file_io"] ->
  forall es t, left_over W c s es t -> forall q, t q = None.
Proof. exact python_single. Qed.
Print Assumptions C89_python_single.
Theorem C89_node_single :
  forall W obj p, object_of obj p -> env_with_args obj -> plain_call p ->
  forall cmd argv c ops s out nm, world_ok W -> node_command obj = NVal cmd -> shell cmd = Some [argv] ->
  judger W argv (Ran c ops s) out -> alive (g_t s) = false -> k_seccomp_rule_name p = Some nm -> In nm [lit "c_cpp"; lit "c_cpp_file_io"] ->
  forall es t, left_over W c s es t -> forall q, t q = None.
Proof. exact node_single. Qed.
Print Assumptions C89_node_single.

(** "The Node function returns when the judger has ended" is false without output_path: the program succeeds and
    leaves a process that holds the pipe, for as long as it likes. *)
Theorem C89_node_refuted : exists cmd argv c s r t, node_command (js_object js_open) = NVal cmd /\ shell cmd = Some [argv] /\
  judger piped_world argv (Ran c sample_leaves s) (Prints (print_result r) 0) /\ verdict r = SUCCESS /\ error r = 0 /\ alive (g_t s) = false /\
  left_over piped_world c s leaves t /\ ~ at_end the_pipe t.
Proof. exact js_open_leaves. Qed.
Print Assumptions C89_node_refuted.
(** The same of a Python call whose process was stopped while it was being set up. *)
Theorem C89_stopped_refuted : exists argv c s r t, command (py_vars py_sample) = Some argv /\
  judger piped_world argv (Ran c sample_stopped s) (Prints (print_result r) 0) /\ error r = 0 /\ left_over piped_world c s [] t /\ ~ at_end the_pipe t.
Proof. exact py_stopped. Qed.
Print Assumptions C89_stopped_refuted.

(** Not vacuous: a Python call whose program leaves a process behind. *)
Example C89_sample : exists argv c s r x t,
  passes (py_vars py_sample) py_sample /\ world_ok piped_world /\ command (py_vars py_sample) = Some argv /\
  judger piped_world argv (Ran c sample_leaves s) (Prints (print_result r) 0) /\ alive (g_t s) = false /\
  pipe_at the_pipe [1; 2]%nat (w_k0 piped_world) /\ elsewhere the_pipe (Some (y_input_path py_sample)) /\
  elsewhere the_pipe (Some (y_output_path py_sample)) /\ elsewhere the_pipe (Some (y_error_path py_sample)) /\
  left_over piped_world c s leaves t /\ opens_elsewhere the_pipe leaves /\ t 1%nat = Some x.
Proof.
  destruct py_leaves as (argv & c & s & r & x & t & A & J & _ & _ & Al & L & T & _). exists argv, c, s, r, x, t.
  split; [exact py_sample_passes|]. split; [exact piped_world_ok|]. split; [exact A|]. split; [exact J|]. split; [exact Al|].
  split; [apply piped_at; left; reflexivity|]. do 3 (split; [apply the_elsewhere; reflexivity|]). split; [exact L|].
  split; [intros p n o [X|[X|[]]]; discriminate X|exact T].
Qed.
Example C89_sample_node : object_of (js_object js_open) js_open /\ env_with_args (js_object js_open) /\ plain_call js_open /\ acceptable js_open /\
  world_ok piped_world /\ pipe_at the_pipe [1]%nat (w_k0 piped_world).
Proof. destruct js_open_ok as (A & B & C & D). exact (conj A (conj B (conj C (conj D (conj piped_world_ok (piped_at [1%nat] (or_introl eq_refl))))))). Qed.
