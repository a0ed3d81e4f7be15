(** What run() finds behind the pointers that the Lua binding gives it. *)
From Coq Require Import ZArith List Ascii String.
From Verif.Base Require Import CInt CStr CMem.
From Verif.Model Require Import Config LuaBinding LuaMemory.
Import ListNotations.

(** The configuration [c], with the strings of [c] in live blocks and no pointer to
    anything else. *)
Record points_to (L : lconf) (live : list (nat * str)) (c : config) : Prop := {
  pt_exe : string_of L live 0 = Some (exe_path c);
  pt_input : string_of L live 1 = input_path c;
  pt_output : string_of L live 2 = output_path c;
  pt_error : string_of L live 3 = error_path c;
  pt_log : string_of L live 4 = Some (log_path c);
  pt_rule : string_of L live 5 = seccomp_rule_name c;
  pt_args : map (cell_of live) (l_args L) = args c;
  pt_env : map (cell_of live) (l_env L) = env c;
  pt_nums : (max_cpu_time (l_nums L), max_real_time (l_nums L), max_memory (l_nums L), max_stack (l_nums L),
             max_process_number (l_nums L), max_output_size (l_nums L), memory_limit_check_only (l_nums L),
             uid (l_nums L), gid (l_nums L)) =
            (max_cpu_time c, max_real_time c, max_memory c, max_stack c,
             max_process_number c, max_output_size c, memory_limit_check_only c, uid c, gid c)
}.
