(** The parameters of the Lua function judger.run, as its users give them. *)
From Coq Require Import ZArith List Ascii String.
From Verif.Base Require Import CInt CStr.
From Verif.Model Require Import Config LuaBinding.
From Verif.Spec Require Import IntText.
Import ListNotations.
Open Scope list_scope.
Open Scope Z_scope.

Record lua_params := mkLP {
  lp_cpu : Z; lp_real : Z; lp_memory : Z; lp_processes : Z; lp_output : Z;
  lp_exe : str; lp_input : str; lp_out : str; lp_err : str; lp_log : str;
  lp_rule : option str; lp_args : list str; lp_env : list str; lp_uid : Z; lp_gid : Z }.

(** The keys of a table are distinct. *)
Definition is_table (t : list (lval * lval)) : Prop := NoDup (map fst t).

Definition has (t : list (lval * lval)) (name : string) (v : lval) : Prop := In (LString (lit name), v) t.
Definition lacks (t : list (lval * lval)) (name : string) : Prop := forall v, ~ has t name v.

(** A table of strings with numbers as keys, in the order of lua_next. *)
Definition strings (l : list (lval * lval)) (ss : list str) : Prop :=
  Forall2 (fun e s => exists k, e = (LNumber k, LString s)) l ss.

(** The table [t] holds the parameters [p]. *)
Record describes (t : list (lval * lval)) (p : lua_params) : Prop := {
  d_cpu : has t "max_cpu_time" (LNumber (lp_cpu p));
  d_real : has t "max_real_time" (LNumber (lp_real p));
  d_memory : has t "max_memory" (LNumber (lp_memory p));
  d_processes : has t "max_process_number" (LNumber (lp_processes p));
  d_output : has t "max_output_size" (LNumber (lp_output p));
  d_exe : has t "exe_path" (LString (lp_exe p));
  d_input : has t "input_path" (LString (lp_input p));
  d_out : has t "output_path" (LString (lp_out p));
  d_err : has t "error_path" (LString (lp_err p));
  d_log : has t "log_path" (LString (lp_log p));
  d_rule : match lp_rule p with
           | Some s => has t "seccomp_rule_name" (LString s)
           | None => lacks t "seccomp_rule_name" \/ has t "seccomp_rule_name" LNil
           end;
  d_args : exists l, has t "args" (LTable l) /\ strings l (lp_args p) /\ (List.length l <= 255)%nat;
  d_env : exists l, has t "env" (LTable l) /\ strings l (lp_env p) /\ (List.length l <= 255)%nat;
  d_uid : has t "uid" (LNumber (lp_uid p));
  d_gid : has t "gid" (LNumber (lp_gid p))
}.

(** Values the fields of the configuration can hold: no negative sizes. *)
Record modest (p : lua_params) : Prop := {
  m_ints : is_int (lp_cpu p) /\ is_int (lp_real p) /\ is_int (lp_processes p);
  m_sizes : 0 <= lp_memory p < 2 ^ 32 /\ 0 <= lp_output p < 2 ^ 32;
  m_ids : 0 <= lp_uid p < 2 ^ 32 /\ 0 <= lp_gid p < 2 ^ 32;
  m_strings : no_nul (lp_exe p) /\ no_nul (lp_input p) /\ no_nul (lp_out p) /\ no_nul (lp_err p) /\ no_nul (lp_log p);
  m_rule : forall s, lp_rule p = Some s -> no_nul s;
  m_lists : Forall no_nul (lp_args p) /\ Forall no_nul (lp_env p)
}.

(** The configuration that carries them; the vectors are not preceded by
    exe_path.  There is no parameter for the stack. *)
Record carries (p : lua_params) (c : config) : Prop := {
  c_cpu : max_cpu_time c = lp_cpu p;
  c_real : max_real_time c = lp_real p;
  c_memory : max_memory c = lp_memory p;
  c_processes : max_process_number c = lp_processes p;
  c_output : max_output_size c = lp_output p;
  c_exe : exe_path c = lp_exe p;
  c_input : input_path c = Some (lp_input p);
  c_out : output_path c = Some (lp_out p);
  c_err : error_path c = Some (lp_err p);
  c_log : log_path c = lp_log p;
  c_rule : seccomp_rule_name c = lp_rule p;
  c_args : args c = map Ptr (lp_args p) ++ repeat Null (256 - List.length (lp_args p));
  c_env : env c = map Ptr (lp_env p) ++ repeat Null (256 - List.length (lp_env p));
  c_uid : uid c = lp_uid p;
  c_gid : gid c = lp_gid p
}.
