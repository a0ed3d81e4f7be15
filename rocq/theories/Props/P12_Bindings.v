(** C57: the Lua binding; C60: the constants of the bindings.  [lua_config stack]: the
    configuration that judger.run, called with the arguments [stack], passes to
    run(); [describes t p]: the table [t] holds the parameters [p]; [carries p c]:
    every field of [c] is the parameter of its name (Model/LuaBinding.v,
    Spec/LuaSpec.v).  [run c e]: run() of the core in environment [e]
    (Model/Runner.v). *)
From Coq Require Import ZArith List String.
From Verif.Base Require Import CInt CStr.
From Verif.Model Require Import Config Runner LuaBinding Constants.
From Verif.Spec Require Import LuaSpec LuaSamples Samples.
From Verif.Proofs Require Import LuaProofs LuaSampleFacts ConstantsProofs.
Import ListNotations.
Open Scope Z_scope.

(** ** C57: the Lua binding *)

(** The tables that are accepted are those with all parameters, of the right
    types; the others raise an error. *)
Theorem C57_accepted_iff : forall t, is_table t ->
  (exists c, lua_config [LTable t] = Some c) <-> (exists p, describes t p).
Proof. exact accepted_iff. Qed.
Print Assumptions C57_accepted_iff.
Theorem C57_returns_or_raises : forall f t, is_table t ->
  (exists p, describes t p) /\ (exists v, global_judge f [LTable t] = LReturns v) \/
  (~ exists p, describes t p) /\ (exists msg, global_judge f [LTable t] = LError msg).
Proof. exact lua_outcome. Qed.
Print Assumptions C57_returns_or_raises.

(** Parameters that are not negative, fit their types and hold no NUL arrive unchanged. *)
Theorem C57_carried : forall t p, is_table t -> describes t p -> modest p ->
  exists c, lua_config [LTable t] = Some c /\ carries p c.
Proof. exact described_carried. Qed.
Print Assumptions C57_carried.
Example C57_carried_case : is_table lua_sample /\ describes lua_sample lua_sample_params /\ modest lua_sample_params.
Proof. exact (conj sample_is_table (conj sample_describes sample_modest)). Qed.

(** But no table makes the judger run a program: max_stack is always 0, so run()
    rejects every configuration before fork(), in every environment. *)
Theorem C57_refuted : forall stack c e, lua_config stack = Some c ->
  exists r ef, run c e = Returns (Val r) ef /\ ~ In EfFork ef /\
    error r = (if e_getuid e =? 0 then INVALID_CONFIG else ROOT_REQUIRED).
Proof. exact never_runs. Qed.
Print Assumptions C57_refuted.
Example C57_refuted_case : exists c, lua_config [LTable lua_sample] = Some c.
Proof. apply (accepted_iff _ sample_is_table). exists lua_sample_params. exact sample_describes. Qed.

(** And "unlimited" does not arrive as -1. *)
Theorem C57_unlimited_refuted : forall t p c, is_table t -> describes t p -> lua_config [LTable t] = Some c ->
  (lp_memory p = -1 -> max_memory c = 4294967295) /\ (lp_output p = -1 -> max_output_size c = 4294967295).
Proof. exact unlimited_stored. Qed.
Print Assumptions C57_unlimited_refuted.

(** The returned table holds the result of run(), field by field. *)
Theorem C57_result : forall f t v, global_judge f [LTable t] = LReturns v ->
  exists c l, lua_config [LTable t] = Some c /\ v = LTable l /\ is_table l /\
    has l "cpu_time" (LNumber (cpu_time (f c))) /\ has l "real_time" (LNumber (real_time (f c))) /\
    has l "memory" (LNumber (memory (f c))) /\ has l "signal" (LNumber (signal (f c))) /\
    has l "exit_code" (LNumber (exit_code (f c))) /\ has l "error" (LNumber (error (f c))) /\
    has l "result" (LNumber (verdict (f c))) /\ List.length l = 7%nat.
Proof. exact lua_reports. Qed.
Print Assumptions C57_result.

(** With a second table, that one is used, and the process is aborted after the
    run. *)
Theorem C57_extra_argument : forall f t1 t2 c, lua_config [LTable t1; LTable t2] = Some c ->
  lua_config [LTable t2] = Some c /\ global_judge f [LTable t1; LTable t2] = LAbort.
Proof. exact lua_extra. Qed.
Print Assumptions C57_extra_argument.

(** ** C60: the constants agree *)

(** Python and Node define the same names with the same values; Lua too, with an
    underscore in front. *)
Theorem C60_node : forall n v, In (n, v) node_constants <-> In (n, v) python_constants.
Proof. exact node_python. Qed.
Print Assumptions C60_node.
Theorem C60_lua : forall n v, In (append "_" n, v) lua_constants <-> In (n, v) python_constants.
Proof. exact lua_python. Qed.
Print Assumptions C60_lua.
Theorem C60_lua_names : forall n v, In (n, v) lua_constants -> exists m, n = append "_" m.
Proof. exact lua_prefix. Qed.
Print Assumptions C60_lua_names.

(** These are the constants of the core, and all of them: the two macros, the
    results and the errors, with their prefix. *)
Theorem C60_core : forall n v, In (n, v) python_constants <->
  (n = "UNLIMITED"%string /\ v = UNLIMITED) \/ (n = "VERSION"%string /\ v = VERSION) \/
  (n = "RESULT_SUCCESS"%string /\ v = SUCCESS) \/
  (exists m, n = append "RESULT_" m /\ In (m, v) result_enum) \/
  (exists m, n = append "ERROR_" m /\ In (m, v) error_enum /\ v <> SUCCESS).
Proof. exact python_core. Qed.
Print Assumptions C60_core.

(** A name has one value. *)
Theorem C60_one_value : forall n v w, In (n, v) python_constants -> In (n, w) python_constants -> v = w.
Proof. exact python_fun. Qed.
Print Assumptions C60_one_value.
