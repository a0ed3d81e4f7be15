(** The Lua binding: bindings/Lua/judger.c.  Not modelled: metatables of the
    argument table and doubles above 2^53.  Allocation and freeing of the copies are
    in Model/LuaMemory.v. *)
From Coq Require Import ZArith Bool List Ascii String.
From Verif.Base Require Import CInt CStr CMem.
From Verif.Model Require Import Config.
Import ListNotations.
Open Scope list_scope.
Open Scope nat_scope.

(** A Lua value.  For a number, [n] is what lua_tointeger returns; the entries of a
    table are in the order of lua_next. *)
Inductive lval : Type :=
| LNil
| LBool (b : bool)
| LNumber (n : Z)
| LString (s : str)
| LTable (l : list (lval * lval))
| LOther.

Inductive ltype := TNumber | TString | TTable.

(** lua_type(L, -1) == t *)
Definition has_type (t : ltype) (v : lval) : bool :=
  match t, v with
  | TNumber, LNumber _ | TString, LString _ | TTable, LTable _ => true
  | _, _ => false
  end.
Definition is_nil (v : lval) : bool := match v with LNil => true | _ => false end.

(** bindings/Lua/judger.c:59-76: name, type, [nil_accept]. *)
Definition arg_mask : list (string * ltype * bool) :=
  [("max_cpu_time", TNumber, false); ("max_real_time", TNumber, false); ("max_memory", TNumber, false);
   ("max_process_number", TNumber, false); ("max_output_size", TNumber, false); ("exe_path", TString, false);
   ("input_path", TString, false); ("output_path", TString, false); ("error_path", TString, false);
   ("log_path", TString, false); ("seccomp_rule_name", TString, true); ("args", TTable, false); ("env", TTable, false);
   ("uid", TNumber, false); ("gid", TNumber, false)]%string.

(** lua_gettable with a string key. *)
Fixpoint lookup (l : list (lval * lval)) (name : str) : lval :=
  match l with
  | [] => LNil
  | (LString k, v) :: l => if str_eqb k name then v else lookup l name
  | _ :: l => lookup l name
  end.

(** bindings/Lua/judger.c:85-90: the copy ends at the first NUL. *)
Definition strdup (s : str) : str := match cstr (terminated s) with Val t => t | UB => [] end.

(** bindings/Lua/judger.c:108-132: [None] for the result 0. *)
Fixpoint checkstringtable (l : list (lval * lval)) (max_size : nat) : option (list str) :=
  match l with
  | [] => Some []
  | (LNumber _, LString s) :: l =>
      match max_size with
      | 0 => None
      | S max_size => match checkstringtable l max_size with Some r => Some (strdup s :: r) | None => None end
      end
  | _ :: _ => None
  end.

(** An [int] stored through a pointer to a [long]: the low half changes
    (little-endian, 64 bit). *)
Definition store_low (old n : Z) : Z := ((old / U32_MOD) * U32_MOD + n mod U32_MOD)%Z.

(** bindings/Lua/judger.c:140-154 and 167, 170, 177, 180: [*arg_refs[i] = ...].  lua_tointeger is a 64-bit
    integer, converted to [int]. *)
Definition store_number (i : nat) (n : Z) (c : config) : config :=
  match i with
  | 0 => mkConfig (cast_int n) (max_real_time c) (max_memory c) (max_stack c) (max_process_number c) (max_output_size c) (memory_limit_check_only c) (exe_path c) (input_path c) (output_path c) (error_path c) (args c) (env c) (log_path c) (seccomp_rule_name c) (uid c) (gid c)
  | 1 => mkConfig (max_cpu_time c) (cast_int n) (max_memory c) (max_stack c) (max_process_number c) (max_output_size c) (memory_limit_check_only c) (exe_path c) (input_path c) (output_path c) (error_path c) (args c) (env c) (log_path c) (seccomp_rule_name c) (uid c) (gid c)
  | 2 => mkConfig (max_cpu_time c) (max_real_time c) (store_low (max_memory c) n) (max_stack c) (max_process_number c) (max_output_size c) (memory_limit_check_only c) (exe_path c) (input_path c) (output_path c) (error_path c) (args c) (env c) (log_path c) (seccomp_rule_name c) (uid c) (gid c)
  | 3 => mkConfig (max_cpu_time c) (max_real_time c) (max_memory c) (max_stack c) (cast_int n) (max_output_size c) (memory_limit_check_only c) (exe_path c) (input_path c) (output_path c) (error_path c) (args c) (env c) (log_path c) (seccomp_rule_name c) (uid c) (gid c)
  | 4 => mkConfig (max_cpu_time c) (max_real_time c) (max_memory c) (max_stack c) (max_process_number c) (store_low (max_output_size c) n) (memory_limit_check_only c) (exe_path c) (input_path c) (output_path c) (error_path c) (args c) (env c) (log_path c) (seccomp_rule_name c) (uid c) (gid c)
  | 13 => mkConfig (max_cpu_time c) (max_real_time c) (max_memory c) (max_stack c) (max_process_number c) (max_output_size c) (memory_limit_check_only c) (exe_path c) (input_path c) (output_path c) (error_path c) (args c) (env c) (log_path c) (seccomp_rule_name c) (cast_u32 n) (gid c)
  | 14 => mkConfig (max_cpu_time c) (max_real_time c) (max_memory c) (max_stack c) (max_process_number c) (max_output_size c) (memory_limit_check_only c) (exe_path c) (input_path c) (output_path c) (error_path c) (args c) (env c) (log_path c) (seccomp_rule_name c) (uid c) (cast_u32 n)
  | _ => c
  end.

Definition store_string (i : nat) (s : str) (c : config) : config :=
  match i with
  | 5 => mkConfig (max_cpu_time c) (max_real_time c) (max_memory c) (max_stack c) (max_process_number c) (max_output_size c) (memory_limit_check_only c) s (input_path c) (output_path c) (error_path c) (args c) (env c) (log_path c) (seccomp_rule_name c) (uid c) (gid c)
  | 6 => mkConfig (max_cpu_time c) (max_real_time c) (max_memory c) (max_stack c) (max_process_number c) (max_output_size c) (memory_limit_check_only c) (exe_path c) (Some s) (output_path c) (error_path c) (args c) (env c) (log_path c) (seccomp_rule_name c) (uid c) (gid c)
  | 7 => mkConfig (max_cpu_time c) (max_real_time c) (max_memory c) (max_stack c) (max_process_number c) (max_output_size c) (memory_limit_check_only c) (exe_path c) (input_path c) (Some s) (error_path c) (args c) (env c) (log_path c) (seccomp_rule_name c) (uid c) (gid c)
  | 8 => mkConfig (max_cpu_time c) (max_real_time c) (max_memory c) (max_stack c) (max_process_number c) (max_output_size c) (memory_limit_check_only c) (exe_path c) (input_path c) (output_path c) (Some s) (args c) (env c) (log_path c) (seccomp_rule_name c) (uid c) (gid c)
  | 9 => mkConfig (max_cpu_time c) (max_real_time c) (max_memory c) (max_stack c) (max_process_number c) (max_output_size c) (memory_limit_check_only c) (exe_path c) (input_path c) (output_path c) (error_path c) (args c) (env c) s (seccomp_rule_name c) (uid c) (gid c)
  | 10 => mkConfig (max_cpu_time c) (max_real_time c) (max_memory c) (max_stack c) (max_process_number c) (max_output_size c) (memory_limit_check_only c) (exe_path c) (input_path c) (output_path c) (error_path c) (args c) (env c) (log_path c) (Some s) (uid c) (gid c)
  | _ => c
  end.

Definition store_table (i : nat) (a : list cell) (c : config) : config :=
  match i with
  | 11 => mkConfig (max_cpu_time c) (max_real_time c) (max_memory c) (max_stack c) (max_process_number c) (max_output_size c) (memory_limit_check_only c) (exe_path c) (input_path c) (output_path c) (error_path c) a (env c) (log_path c) (seccomp_rule_name c) (uid c) (gid c)
  | 12 => mkConfig (max_cpu_time c) (max_real_time c) (max_memory c) (max_stack c) (max_process_number c) (max_output_size c) (memory_limit_check_only c) (exe_path c) (input_path c) (output_path c) (error_path c) (args c) a (log_path c) (seccomp_rule_name c) (uid c) (gid c)
  | _ => c
  end.

(** bindings/Lua/judger.c:180: only field 10 accepts nil. *)
Definition store_nil (i : nat) (c : config) : config :=
  match i with
  | 10 => mkConfig (max_cpu_time c) (max_real_time c) (max_memory c) (max_stack c) (max_process_number c) (max_output_size c) (memory_limit_check_only c) (exe_path c) (input_path c) (output_path c) (error_path c) (args c) (env c) (log_path c) None (uid c) (gid c)
  | _ => c
  end.

(** Line 155: everything is zero.  (The strings that cannot be null when run() is
    reached are represented by the empty string until they are set.) *)
Definition zero_config : config :=
  mkConfig 0 0 0 0 0 0 0 [] None None None (repeat Null ARGS_MAX_NUMBER) (repeat Null ENV_MAX_NUMBER) [] None 0 0.

(** The array after line 173 and 177. *)
Definition cells (ss : list str) : list cell := map Ptr ss ++ repeat Null (256 - List.length ss).

(** bindings/Lua/judger.c:158-185: [inr] for luaL_error with its message. *)
Fixpoint read_args (t : list (lval * lval)) (masks : list (string * ltype * bool)) (i : nat) (c : config) : config + str :=
  match masks with
  | [] => inl c
  | (name, ty, nil_accept) :: masks =>
      let v := lookup t (lit name) in
      if negb (has_type ty v) && negb (nil_accept && is_nil v) then inr (lit "bad argument " ++ lit name)
      else
        match v with
        | LNumber n => read_args t masks (S i) (store_number i n c)
        | LString s => read_args t masks (S i) (store_string i (strdup s) c)
        | LTable l =>
            match checkstringtable l 255 with
            | Some ss => read_args t masks (S i) (store_table i (cells ss) c)
            | None => inr (lit "bad argument " ++ lit name ++ lit " (item must be a string)")
            end
        | LNil => read_args t masks (S i) (store_nil i c)
        | _ => read_args t masks (S i) c
        end
  end.

(** Lines 155-185. *)
Definition read_config (t : list (lval * lval)) : config + str := read_args t arg_mask 0 zero_config.

Inductive lua_out : Type :=
| LReturns (v : lval)
| LError (msg : str)
| LAbort.               (* the assertion of line 197 fails *)

(** bindings/Lua/judger.c:189-196 *)
Definition result_table (r : result) : lval :=
  let field name n := (LString (lit name), LNumber n) in
  LTable [field "cpu_time"%string (cpu_time r); field "real_time"%string (real_time r); field "memory"%string (memory r);
          field "signal"%string (signal r); field "exit_code"%string (exit_code r); field "error"%string (error r);
          field "result"%string (verdict r)].

(** The table that line 160 indexes: the last argument.  The first argument is
    checked to be a table in line 157. *)
Definition last_table (stack : list lval) : option (list (lval * lval)) :=
  match hd_error stack with
  | Some (LTable _) => match last stack LNil with LTable l => Some l | _ => None end
  | _ => None
  end.

(** global_judge, bindings/Lua/judger.c:134-201, called with the arguments [stack]: the
    configuration run() is called with, if it is reached. *)
Definition lua_config (stack : list lval) : option config :=
  match last_table stack with
  | Some t => match read_config t with inl c => Some c | inr _ => None end
  | None => None
  end.

Definition global_judge (run : config -> result) (stack : list lval) : lua_out :=
  match last_table stack with
  | None => LError (lit "bad argument #1 to 'run' (table expected)")   (* or an attempt to index a non-table *)
  | Some t =>
      match read_config t with
      | inr msg => LError msg
      | inl c => if Nat.eqb (List.length stack) 1 then LReturns (result_table (run c)) else LAbort
      end
  end.

(** bindings/Lua/judger.c:29-52: the constants of the module. *)
Definition lua_constants : list (string * Z) :=
  [("_VERSION", VERSION); ("_UNLIMITED", UNLIMITED); ("_RESULT_WRONG_ANSWER", WRONG_ANSWER); ("_RESULT_SUCCESS", SUCCESS);
   ("_RESULT_CPU_TIME_LIMIT_EXCEEDED", CPU_TIME_LIMIT_EXCEEDED); ("_RESULT_REAL_TIME_LIMIT_EXCEEDED", REAL_TIME_LIMIT_EXCEEDED);
   ("_RESULT_MEMORY_LIMIT_EXCEEDED", MEMORY_LIMIT_EXCEEDED); ("_RESULT_RUNTIME_ERROR", RUNTIME_ERROR);
   ("_RESULT_SYSTEM_ERROR", SYSTEM_ERROR); ("_ERROR_INVALID_CONFIG", INVALID_CONFIG); ("_ERROR_FORK_FAILED", FORK_FAILED);
   ("_ERROR_PTHREAD_FAILED", PTHREAD_FAILED); ("_ERROR_WAIT_FAILED", WAIT_FAILED); ("_ERROR_ROOT_REQUIRED", ROOT_REQUIRED);
   ("_ERROR_LOAD_SECCOMP_FAILED", LOAD_SECCOMP_FAILED); ("_ERROR_SETRLIMIT_FAILED", SETRLIMIT_FAILED);
   ("_ERROR_DUP2_FAILED", DUP2_FAILED); ("_ERROR_SETUID_FAILED", SETUID_FAILED); ("_ERROR_EXECVE_FAILED", EXECVE_FAILED);
   ("_ERROR_SPJ_ERROR", SPJ_ERROR)]%string.
