(** A sample argument table. *)
From Coq Require Import ZArith List Ascii String.
From Verif.Base Require Import CInt CStr.
From Verif.Model Require Import Config LuaBinding.
From Verif.Spec Require Import LuaSpec.
Import ListNotations.
Open Scope list_scope.
Open Scope Z_scope.

Definition lua_key (s : string) : lval := LString (lit s).
Definition lua_sample : list (lval * lval) :=
  [(lua_key "max_cpu_time", LNumber 1000); (lua_key "max_real_time", LNumber 2000); (lua_key "max_memory", LNumber 134217728);
   (lua_key "max_process_number", LNumber 10); (lua_key "max_output_size", LNumber 10000);
   (lua_key "exe_path", lua_key "/bin/echo"); (lua_key "input_path", lua_key "in.txt"); (lua_key "output_path", lua_key "out.txt");
   (lua_key "error_path", lua_key "err.txt"); (lua_key "log_path", lua_key "judger.log");
   (lua_key "args", LTable [(LNumber 1, lua_key "hello"); (LNumber 2, lua_key "world")]);
   (lua_key "env", LTable []); (lua_key "uid", LNumber 65534); (lua_key "gid", LNumber 65534)].
Definition lua_sample_params : lua_params :=
  mkLP 1000 2000 134217728 10 10000 (lit "/bin/echo") (lit "in.txt") (lit "out.txt") (lit "err.txt") (lit "judger.log") None
    [lit "hello"; lit "world"] [] 65534 65534.
