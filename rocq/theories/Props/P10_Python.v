(** C53-C56: the Python binding.  [passes vars p]: run() is called with the
    arguments [p], of the documented types; [command vars] is the command it starts
    ([None]: ValueError instead); [does posix argv (Val a)]: what the judger does for
    a command line; [python_run ... o]: how the whole call ends (Model/Python.v,
    Model/PythonDecode.v, Spec/PythonSpec.v). *)
From Coq Require Import ZArith Bool List Ascii String Arith.
From Verif.Base Require Import CInt CStr.
From Verif.Model Require Import Config Seccomp Child Argtable Main Messages Python PythonDecode.
From Verif.Spec Require Import RunSpec SandboxSpec IntText CmdLine Invocation MessageSpec PythonSpec.
From Verif.Spec Require Json Utf8 OutputSpec.
From Verif.Proofs Require Import ChildClaims CommandClaims PythonProofs PythonClaims PythonTypes PythonOutcome.
Import ListNotations.
Open Scope list_scope.
Open Scope nat_scope.

(** ** C53: parameters arrive as they were given *)
Theorem C53_faithful : forall posix vars p,
  passes vars p -> valid p ->
  exists argv c, command vars = Some argv /\ does posix argv (Val (Run c)) /\ asks_for p c.
Proof. exact py_valid. Qed.
Print Assumptions C53_faithful.

(** Nothing else is ever run, whatever the values. *)
Theorem C53_only : forall posix vars p,
  passes vars p -> forall argv c, command vars = Some argv -> does posix argv (Val (Run c)) -> valid p /\ asks_for p c.
Proof. exact py_only. Qed.
Print Assumptions C53_only.

(** Other values: ValueError or usage errors; 255 elements of args reach an
    out-of-bounds write in the judger (C47). *)
Theorem C53_invalid : forall posix vars p,
  passes vars p -> ~ valid p ->
  command vars = None \/
  exists argv, command vars = Some argv /\
    ((exists errs, does posix argv (Val (Errors errs)) /\ errs <> [] /\ List.length errs <= 10) \/
     (List.length (y_args p) = 255 /\ does posix argv UB)).
Proof. exact py_invalid. Qed.
Print Assumptions C53_invalid.

(** The configuration determines the call, up to what is documented as default. *)
Theorem C53_injective : forall p p' c,
  valid p -> valid p' -> asks_for p c -> asks_for p' c ->
  y_max_cpu_time p = y_max_cpu_time p' /\ y_max_real_time p = y_max_real_time p' /\ y_max_memory p = y_max_memory p' /\
  y_max_output_size p = y_max_output_size p' /\ y_max_process_number p = y_max_process_number p' /\
  y_exe_path p = y_exe_path p' /\ y_input_path p = y_input_path p' /\ y_output_path p = y_output_path p' /\
  y_error_path p = y_error_path p' /\ y_log_path p = y_log_path p' /\ y_args p = y_args p' /\ y_env p = y_env p'.
Proof. exact asks_injective. Qed.
Print Assumptions C53_injective.

(** Values that look like options, values in other notations, ids. *)
Definition sample_call : py_call :=
  {| y_max_cpu_time := 1000; y_max_real_time := -1; y_max_memory := 134217728; y_max_stack := -1;
     y_max_output_size := 0; y_max_process_number := -2147483648;
     y_exe_path := lit "/bin/echo"; y_input_path := lit "--version"; y_output_path := lit "a=b"; y_error_path := lit "-";
     y_args := [lit "--help"; lit "--"; lit "--args=x"]; y_env := [lit "PATH=/bin"];
     y_log_path := lit "judger.log"; y_seccomp_rule_name := Some (lit "c_cpp");
     y_uid := 0; y_gid := -2; y_memory_limit_check_only := 7 |}.
Definition vars_of (p : py_call) : locals := fun n =>
  match find (fun nz => String.eqb n (fst nz)) (ints_of p) with
  | Some (_, z) => PInt z
  | None => match find (fun ns => String.eqb n (fst ns)) (strs_of p) with
            | Some (_, s) => PStr s
            | None => if String.eqb n "args" then PList (map PStr (y_args p))
                      else if String.eqb n "env" then PList (map PStr (y_env p))
                      else match y_seccomp_rule_name p with Some s => PStr s | None => PNone end
            end
  end.
Lemma vars_pass : forall p, passes (vars_of p) p.
Proof.
  intros p. split; [|split; [|split; [reflexivity|split; reflexivity]]].
  - intros n z I. unfold ints_of in I. cbn [In] in I. repeat (destruct I as [I|I]; [injection I as <- <-; reflexivity|]). destruct I.
  - intros n z I. unfold strs_of in I. cbn [In] in I. repeat (destruct I as [I|I]; [injection I as <- <-; reflexivity|]). destruct I.
Qed.
Example C53_case : passes (vars_of sample_call) sample_call /\ valid sample_call.
Proof.
  split; [apply vars_pass|]. unfold valid, usable, c_string, no_char, is_int. cbn [sample_call y_args y_env y_seccomp_rule_name List.length].
  split; [|split; [|split; [|split; [|split; [|split]]]]].
  - intros n z I. unfold ints_of in I. cbn in I. repeat (destruct I as [I|I]; [injection I as <- <-; split; discriminate|]). destruct I.
  - intros n s I. unfold strs_of in I. cbn in I.
    repeat (destruct I as [I|I]; [injection I as <- <-; split; [discriminate|vm_compute; intuition discriminate]|]). destruct I.
  - repeat (constructor; [split; [discriminate|vm_compute; intuition discriminate]|]). constructor.
  - repeat (constructor; [split; [discriminate|vm_compute; intuition discriminate]|]). constructor.
  - apply Nat.leb_le. reflexivity.
  - apply Nat.leb_le. reflexivity.
  - vm_compute; intuition discriminate.
Qed.

(** ** C54: wrong types *)
(** A ValueError, and the judger is not started, exactly when an argument has the
    wrong type or a string holds a null byte. *)
Theorem C54_not_started : forall vars, command vars = None <-> wrong_type vars \/ holds_nul vars.
Proof. exact not_started. Qed.
Print Assumptions C54_not_started.

(** isinstance(True, int): bools get through, but the judger refuses them. *)
Theorem C54_bool_not_run : forall posix vars n b argv,
  In n int_params -> vars n = PBool b -> command vars = Some argv ->
  exists errs, does posix argv (Val (Errors errs)) /\ errs <> [] /\ List.length errs <= 10.
Proof. exact bool_errors. Qed.
Print Assumptions C54_bool_not_run.

Example C54_case :
  wrong_type (fun n => if String.eqb n "uid" then PStr (lit "0") else vars_of sample_call n) /\
  wrong_type (fun n => if String.eqb n "args" then PList [PStr (lit "a"); PInt 1] else vars_of sample_call n) /\
  holds_nul (fun n => if String.eqb n "exe_path" then PStr (lit "a" ++ [NUL]) else vars_of sample_call n) /\
  exists argv, command (fun n => if String.eqb n "memory_limit_check_only" then PBool true else vars_of sample_call n) = Some argv.
Proof.
  split; [|split; [|split]].
  - apply (wrong_int _ "uid"%string); [cbn; tauto|discriminate|discriminate].
  - apply (wrong_item _ "args"%string [PStr (lit "a"); PInt 1] (PInt 1)); [cbn; tauto|reflexivity|cbn; tauto|discriminate].
  - apply (nul_str _ "exe_path"%string (lit "a" ++ [NUL])); [cbn; tauto|reflexivity|]. intros N. apply N. cbn. tauto.
  - eexists. vm_compute. reflexivity.
Qed.

(** ** C55: what the call returns *)
(** With valid arguments: the judger's result as a dictionary, if nothing but
    blanks came before it and nothing was written to standard error; otherwise an
    exception.  [own]: output of the program on the judger's standard output. *)
Theorem C55_result : forall posix run vars p,
  passes vars p -> forall own err, valid p -> exists c, asks_for p c /\ forall o,
  python_run posix run own err vars o <->
  (err = [] /\ Json.blank own /\ o = Returns (OutputSpec.result_object (run c))) \/ ((err <> [] \/ ~ Json.blank own) /\ o = Raises).
Proof. exact returns_result. Qed.
Print Assumptions C55_result.

(** Other arguments: an exception. *)
Theorem C55_invalid_raises : forall posix run vars p,
  passes vars p -> forall err, ~ valid p -> List.length (y_args p) <> 255 ->
  (forall argv, command vars = Some argv -> Forall short argv) ->
  forall o, python_run posix run [] err vars o <-> o = Raises.
Proof. exact invalid_raises. Qed.
Print Assumptions C55_invalid_raises.

(** Of any output whatsoever. *)
Theorem C55_decoding : forall out err o,
  decodes out err o ->
  (err <> [] -> o = Raises) /\
  (forall v, o = Returns v <-> err = [] /\ Utf8.utf8 out /\ Json.json_text true out v) /\
  (forall o', decodes out err o' -> o' = o).
Proof. exact decoding. Qed.
Print Assumptions C55_decoding.

Example C55_case :
  Json.blank (lit "  ") /\ ~ Json.blank (lit "{}") /\
  ~ valid {| y_max_cpu_time := 1000; y_max_real_time := -1; y_max_memory := 134217728; y_max_stack := 2147483648;
     y_max_output_size := 0; y_max_process_number := 5;
     y_exe_path := []; y_input_path := []; y_output_path := []; y_error_path := [];
     y_args := []; y_env := []; y_log_path := []; y_seccomp_rule_name := None; y_uid := 0; y_gid := 0; y_memory_limit_check_only := 0 |}.
Proof.
  split; [repeat (constructor; [cbn; tauto|]); constructor|]. split.
  - intros B. inversion B as [|c s I B']. cbn in I. intuition discriminate.
  - intros (H & _). destruct (H "max_stack"%string 2147483648%Z) as [_ N]; [cbn; tauto|]. apply N. reflexivity.
Qed.

(** ** C56: -1 *)
(** Five parameters: the limit is off, for the kernel and for the verdict. *)
Theorem C56_five : forall posix vars p,
  passes vars p -> forall argv c, command vars = Some argv -> does posix argv (Val (Run c)) ->
  (y_max_cpu_time p = -1 -> max_cpu_time c = UNLIMITED /\ wanted_limit c RCpu = None)%Z /\
  (y_max_real_time p = -1 -> max_real_time c = UNLIMITED)%Z /\
  (y_max_memory p = -1 -> max_memory c = UNLIMITED /\ wanted_limit c RAs = None)%Z /\
  (y_max_process_number p = -1 -> wanted_limit c RNproc = None)%Z /\
  (y_max_output_size p = -1 -> wanted_limit c RFsize = None)%Z.
Proof. exact five_unlimited. Qed.
Print Assumptions C56_five.

(** The other four: for every such call, -1 is something else. *)
Theorem C56_refuted : forall posix vars p,
  passes vars p -> forall argv c, command vars = Some argv -> does posix argv (Val (Run c)) ->
  (y_max_stack p = -1 -> wanted_limit c RStack = Some 16777216)%Z /\
  (y_uid p = -1 -> uid c = 65534)%Z /\ (y_gid p = -1 -> gid c = 65534)%Z /\
  (y_memory_limit_check_only p = -1 -> memory_limit_check_only c = 0)%Z.
Proof. exact four_defaults. Qed.
Print Assumptions C56_refuted.

Example C56_case : y_max_real_time sample_call = (-1)%Z /\ y_max_stack sample_call = (-1)%Z /\
  exists argv c, command (vars_of sample_call) = Some argv /\ does false argv (Val (Run c)).
Proof.
  split; [reflexivity|]. split; [reflexivity|].
  destruct (py_valid false _ _ (vars_pass sample_call) (proj2 C53_case)) as (argv & c & E & D & _). eauto.
Qed.
