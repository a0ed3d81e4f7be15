(** Quoting the values of a call of the Node function run(). *)
From Coq Require Import ZArith Bool List Ascii String.
From Verif.Base Require Import CStr.
From Verif.Model Require Import NodeBinding.
From Verif.Spec Require Import NodeSpec.
Import ListNotations.
Open Scope list_scope.

(** Single quotes around, and '\'' for each single quote inside. *)
Definition quote : ascii := "'"%char.
Definition quoted (s : str) : str :=
  [quote] ++ flat_map (fun c => if ascii_dec c quote then lit "'\''" else [c]) s ++ [quote].
(** Only single quotes around. *)
Definition wrapped (s : str) : str := [quote] ++ s ++ [quote].

(** A text that, wrapped, ends the quotes, and begins a command [b]. *)
Definition breaks_out (a b : str) : str := a ++ lit "';" ++ b ++ lit " '".

(** What is written into the object for the text [meant]: the text itself if it is plain, or it quoted. *)
Definition stands_for (written meant : str) : Prop :=
  (written = meant /\ plain_text meant) \/ (written = quoted meant /\ nul_free meant /\ List.length written <= 254).
Definition maybe (R : str -> str -> Prop) (a b : option str) : Prop :=
  match a, b with Some x, Some y => R x y | None, None => True | _, _ => False end.

(** The call [written] has the numbers of the call [meant], and stands for it. *)
Definition call_stands_for (written meant : node_call) : Prop :=
  k_ints written = k_ints meant /\
  Forall2 (maybe stands_for) (map snd (k_strs written)) (map snd (k_strs meant)) /\
  Forall2 stands_for (k_args written) (k_args meant) /\ Forall2 stands_for (k_env written) (k_env meant).

(** A sample: quoted where needed. *)
Definition call_with (input : str) (args : list str) : node_call := {|
  k_max_cpu_time := Some 1000%Z; k_max_real_time := None; k_max_memory := None; k_memory_limit_check_only := None;
  k_max_stack := None; k_max_process_number := None; k_max_output_size := None; k_uid := Some 65534%Z; k_gid := None;
  k_input_path := Some input; k_output_path := None; k_error_path := None; k_exe_path := Some (lit "/bin/prog");
  k_log_path := None; k_seccomp_rule_name := None; k_args := args; k_env := [] |}.
Definition awkward : node_call := call_with (lit "it's; here") [lit "$(reboot)"; lit "plain"; lit "a *.c &"].
Definition awkward_written : node_call := call_with (lit "'it'\''s; here'") [lit "'$(reboot)'"; lit "plain"; lit "'a *.c &'"].

(** All strings quoted. *)
Definition all_quoted (p : node_call) : node_call := {|
  k_max_cpu_time := k_max_cpu_time p; k_max_real_time := k_max_real_time p; k_max_memory := k_max_memory p;
  k_memory_limit_check_only := k_memory_limit_check_only p; k_max_stack := k_max_stack p;
  k_max_process_number := k_max_process_number p; k_max_output_size := k_max_output_size p; k_uid := k_uid p; k_gid := k_gid p;
  k_input_path := option_map quoted (k_input_path p); k_output_path := option_map quoted (k_output_path p);
  k_error_path := option_map quoted (k_error_path p); k_exe_path := option_map quoted (k_exe_path p);
  k_log_path := option_map quoted (k_log_path p); k_seccomp_rule_name := option_map quoted (k_seccomp_rule_name p);
  k_args := map quoted (k_args p); k_env := map quoted (k_env p) |}.
