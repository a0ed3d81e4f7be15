(** C58, C59: the Node binding.  [node_command o]: the command line built from the object
    [o], or an exception, or undefined behaviour; [shell cmd]: the commands, each a
    list of words, that /bin/sh runs for [cmd]; [node_decodes out r]: [r] is the outcome
    of the call when the command wrote [out]; [node_run]: the whole call
    (Model/NodeBinding.v).  [object_of o p], [requests p c]: the object holds the
    parameters [p], the configuration [c] is what they ask for (Spec/NodeSpec.v). *)
From Coq Require Import ZArith List Ascii String Lia.
From Verif.Base Require Import CInt CStr.
From Verif.Model Require Import Config Argtable Main Messages NodeBinding.
From Verif.Spec Require Import Json OutputSpec NodeSpec NodeSamples.
From Verif.Proofs Require Import NodeProofs NodeOutput NodeClaims NodeSampleFacts.
Import ListNotations.
Open Scope list_scope.
Open Scope nat_scope.

Definition judger : str := lit "/usr/lib/judger/libjudger.so".

(** ** C58: the result behind any program output *)

(** Whatever the program wrote before, braces included, as long as it has no NUL: it is printed,
    and exactly the judger's result is returned. *)
Theorem C58_result : forall own r o,
  nul_free own -> (Z.of_nat (List.length (own ++ print_result r)) < 2 ^ 31)%Z ->
  node_decodes (own ++ print_result r) o <-> o = NodeReturns own (result_object r).
Proof. exact node_result_clean. Qed.
Print Assumptions C58_result.
Example C58_result_case : nul_free (lit "{""result"": 0}") /\
  (Z.of_nat (List.length (lit "{""result"": 0}" ++ print_result (mkResult 1 2 3 0 0 0 0))) < 2 ^ 31)%Z.
Proof. split; [intros I; cbn in I; repeat (destruct I as [I|I]; [discriminate I|]); exact I|vm_compute; reflexivity]. Qed.

(** NULs are harmless if a newline follows them. *)
Theorem C58_result_lines : forall a b r o,
  lines a -> nul_free b -> (Z.of_nat (List.length (node_reads a ++ b ++ print_result r)) < 2 ^ 31)%Z ->
  node_decodes ((a ++ b) ++ print_result r) o <-> o = NodeReturns (node_reads a ++ b) (result_object r).
Proof. exact node_result. Qed.
Print Assumptions C58_result_lines.

(** In the last line they hide the report: the binding reads outside its buffer
    (line shorter than 253 bytes, no brace before). *)
Theorem C58_nul_refuted : forall a b c r o,
  lines a -> nul_free b -> ~ In LF (b ++ NUL :: c) -> List.length (b ++ NUL :: c) < 253 -> ~ In "{"%char (a ++ b) ->
  node_decodes ((a ++ b ++ NUL :: c) ++ print_result r) o <-> o = NodeUndefined.
Proof. exact node_nul_lost. Qed.
Print Assumptions C58_nul_refuted.
Example C58_nul_case : lines (lit "ok" ++ [LF]) /\ nul_free [] /\ ~ In LF ([] ++ NUL :: []) /\ ~ In "{"%char ((lit "ok" ++ [LF]) ++ []).
Proof.
  split; [right; exists (lit "ok"); reflexivity|]. split; [intros []|]. split.
  - intros [I|[]]. discriminate I.
  - intros I. cbn in I. repeat (destruct I as [I|I]; [discriminate I|]). exact I.
Qed.
(** And the program can add a field to the result. *)
Theorem C58_extra_field_refuted : forall k z r o,
  forallb (fun c => (32 <=? nat_of_ascii c) && negb (aeqb c """") && negb (aeqb c "\"))%bool (lit k) = true -> ~ In "{"%char (lit k) ->
  (Z.of_nat (List.length (forged k z ++ print_result r)) < 2 ^ 31)%Z ->
  node_decodes (forged k z ++ print_result r) o <->
  o = NodeReturns [] (match result_object r with JObject l => JObject (field k z :: l) | v => v end).
Proof. exact node_forged. Qed.
Print Assumptions C58_extra_field_refuted.

(** Without a brace in the output: undefined behaviour. *)
Theorem C58_no_brace : forall out o, ~ In "{"%char out -> node_decodes out o <-> o = NodeUndefined.
Proof. exact node_no_brace. Qed.
Print Assumptions C58_no_brace.

(** ** C59: parameters *)

(** Short values without characters that are special to the shell: the judger is started with the
    configuration asked for; nothing else is run with such values. *)
Theorem C59_faithful : forall posix o p,
  object_of o p -> env_with_args o -> plain_call p -> acceptable p ->
  exists cmd argv c, node_command o = NVal cmd /\ shell cmd = Some [argv] /\ hd_error argv = Some judger /\
    does posix argv (Val (Run c)) /\ requests p c.
Proof. exact node_faithful. Qed.
Print Assumptions C59_faithful.
Example C59_faithful_case : object_of node_object node_sample /\ env_with_args node_object /\ plain_call node_sample /\ acceptable node_sample.
Proof. exact (conj (proj1 sample_object) (conj (proj2 sample_object) (conj sample_plain sample_acceptable))). Qed.
Theorem C59_only : forall posix o p,
  object_of o p -> env_with_args o -> plain_call p -> forall cmd argv c,
  node_command o = NVal cmd -> shell cmd = Some [argv] -> does posix argv (Val (Run c)) -> acceptable p /\ requests p c.
Proof. exact node_runs_only. Qed.
Print Assumptions C59_only.

(** The whole call. *)
Theorem C59_returns : forall posix run o p,
  object_of o p -> env_with_args o -> plain_call p -> forall own, acceptable p -> nul_free own ->
  exists c, requests p c /\
  ((Z.of_nat (List.length (own ++ print_result (run c))) < 2 ^ 31)%Z -> forall r,
   node_run posix run own o r <-> r = Some (NodeReturns own (result_object (run c)))).
Proof. exact node_returns. Qed.
Print Assumptions C59_returns.
(** Values that the judger does not accept: undefined behaviour (its messages have no brace). *)
Theorem C59_unacceptable : forall posix run o p,
  object_of o p -> env_with_args o -> plain_call p -> int64_call p -> ~ acceptable p -> List.length (k_args p) <> 255 ->
  forall r, node_run posix run [] o r <-> r = Some NodeUndefined.
Proof. exact node_refused. Qed.
Print Assumptions C59_unacceptable.
Example C59_unacceptable_case : exists p, object_of (fun _ => JSNull) p /\ env_with_args (fun _ => JSNull) /\ plain_call p /\ int64_call p /\
  ~ acceptable p /\ List.length (k_args p) <> 255.
Proof.
  exists {| k_max_cpu_time := None; k_max_real_time := None; k_max_memory := None; k_memory_limit_check_only := None;
    k_max_stack := None; k_max_process_number := None; k_max_output_size := None; k_uid := None; k_gid := None;
    k_input_path := None; k_output_path := None; k_error_path := None; k_exe_path := None; k_log_path := None;
    k_seccomp_rule_name := None; k_args := []; k_env := [] |}.
  split; [|split; [left; reflexivity|split; [|split; [|split]]]].
  - split; [|split; [|split; left; auto]]; intros n z I; cbn in I; repeat (destruct I as [I|I]; [injection I as _ <-; reflexivity|]); destruct I.
  - split; [|split; constructor]. intros n z I. cbn in I. repeat (destruct I as [I|I]; [discriminate I|]). destruct I.
  - intros n z I. cbn in I. repeat (destruct I as [I|I]; [discriminate I|]). destruct I.
  - intros (_ & _ & _ & _ & _ & _ & X). apply X. reflexivity.
  - discriminate.
Qed.

(** Types: an accepted object has the right ones; the wrong type of a number is an exception. *)
Theorem C59_types : forall o cmd, node_command o = NVal cmd ->
  (forall n, In n node_int_vars -> o n = JSNull \/ exists z, o n = JSNum z) /\
  (forall n, In n node_str_vars -> o n = JSNull \/ exists s, o n = JSStr s) /\
  (o "args"%string = JSNull \/ exists l, o "args"%string = JSArr l /\ Forall (element_ok "args") l) /\
  (o "env"%string = JSNull \/ exists l, o "env"%string = JSArr l /\ Forall (element_ok "env") l).
Proof. exact node_types. Qed.
Print Assumptions C59_types.
Theorem C59_number_type : forall o n,
  In n node_int_vars -> o n <> JSNull -> (forall z, o n <> JSNum z) -> node_command o = NThrows.
Proof. exact node_int_type. Qed.
Print Assumptions C59_number_type.

(** The exceptions.  A string of 255 bytes or more overflows a buffer, and only that does. *)
Theorem C59_overflow_iff : forall o p, object_of o p -> env_with_args o ->
  (node_command o = NUndef <-> has_long p) /\ ((exists cmd, node_command o = NVal cmd) <-> ~ has_long p).
Proof. exact node_long. Qed.
Print Assumptions C59_overflow_iff.
(** A blank splits a value; a semicolon starts another command. *)
Theorem C59_blank_refuted : forall a b x,
  plain_text x -> Forall plain_char a -> Forall plain_char b -> b <> [] -> List.length (between " " a b) <= 254 ->
  exists cmd, node_command (two_paths x (between " " a b)) = NVal cmd /\
    shell cmd = Some [[judger; lit "--input_path=" ++ a; b; lit "--exe_path=" ++ x]].
Proof. exact node_blank. Qed.
Print Assumptions C59_blank_refuted.
Theorem C59_semicolon_refuted : forall a b x,
  plain_text x -> Forall plain_char a -> command_word b -> List.length (between ";" a b) <= 254 ->
  exists cmd, node_command (two_paths x (between ";" a b)) = NVal cmd /\
    shell cmd = Some [[judger; lit "--input_path=" ++ a]; [b; lit "--exe_path=" ++ x]].
Proof. exact node_semicolon. Qed.
Print Assumptions C59_semicolon_refuted.
Example C59_semicolon_case : plain_text (lit "/bin/x") /\ Forall plain_char (lit "in") /\ command_word (lit "reboot").
Proof.
  split; [apply plain_of; [reflexivity|vm_compute; lia]|]. split; [apply plain_of; [reflexivity|vm_compute; lia]|].
  split; [apply plain_of; [reflexivity|vm_compute; lia]|].
  split; [intros I; cbn in I; repeat (destruct I as [I|I]; [discriminate I|]); exact I|]. split; [discriminate|].
  intros r I. cbn in I. repeat (destruct I as [<-|I]; [discriminate|]). destruct I.
Qed.
(** env without args is refused; env that is not an array is used as one. *)
Theorem C59_env_alone_refuted : forall o p l,
  object_of o p -> o "env"%string = JSArr l -> o "args"%string = JSNull -> ~ has_long p -> node_command o = NThrows.
Proof. exact node_env_alone. Qed.
Print Assumptions C59_env_alone_refuted.
Theorem C59_env_type_refuted : forall o p,
  (forall n z, In (n, z) (k_ints p) -> o n = match z with Some z => JSNum z | None => JSNull end) ->
  (forall n s, In (n, s) (k_strs p) -> o n = match s with Some s => JSStr s | None => JSNull end) ->
  (exists l, o "args"%string = JSArr l /\ elements l (k_args p)) -> o "env"%string <> JSNull -> (forall l, o "env"%string <> JSArr l) ->
  node_command o = NUndef.
Proof. exact node_env_cast. Qed.
Print Assumptions C59_env_type_refuted.
