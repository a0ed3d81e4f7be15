(** A call of the Node function run() and what it should mean. *)
From Coq Require Import ZArith Bool List Ascii String.
From Verif.Base Require Import CStr.
From Verif.Model Require Import Config Messages NodeBinding.
From Verif.Spec Require Import IntText CmdLine Invocation.
Import ListNotations.
Open Scope list_scope.
Open Scope nat_scope.

(** The parameters; [None] for one that is null or missing. *)
Record node_call : Type := {
  k_max_cpu_time : option Z; k_max_real_time : option Z; k_max_memory : option Z; k_memory_limit_check_only : option Z;
  k_max_stack : option Z; k_max_process_number : option Z; k_max_output_size : option Z; k_uid : option Z; k_gid : option Z;
  k_input_path : option str; k_output_path : option str; k_error_path : option str; k_exe_path : option str;
  k_log_path : option str; k_seccomp_rule_name : option str;
  k_args : list str; k_env : list str }.

Definition k_ints (p : node_call) : list (string * option Z) :=
  [("max_cpu_time", k_max_cpu_time p); ("max_real_time", k_max_real_time p); ("max_memory", k_max_memory p);
   ("memory_limit_check_only", k_memory_limit_check_only p); ("max_stack", k_max_stack p);
   ("max_process_number", k_max_process_number p); ("max_output_size", k_max_output_size p); ("uid", k_uid p);
   ("gid", k_gid p)]%string.
Definition k_strs (p : node_call) : list (string * option str) :=
  [("input_path", k_input_path p); ("output_path", k_output_path p); ("error_path", k_error_path p);
   ("exe_path", k_exe_path p); ("log_path", k_log_path p); ("seccomp_rule_name", k_seccomp_rule_name p)]%string.

(** Array elements; null elements are skipped. *)
Inductive elements : list jsval -> list str -> Prop :=
| elements_nil : elements [] []
| elements_str s l ss : elements l ss -> elements (JSStr s :: l) (s :: ss)
| elements_null l ss : elements l ss -> elements (JSNull :: l) ss.

(** A list parameter: an array, or nothing. *)
Definition is_list (v : jsval) (ss : list str) : Prop := (v = JSNull /\ ss = []) \/ exists l, v = JSArr l /\ elements l ss.

(** The object [o] holds the parameters [p]. *)
Definition object_of (o : string -> jsval) (p : node_call) : Prop :=
  (forall n z, In (n, z) (k_ints p) -> o n = match z with Some z => JSNum z | None => JSNull end) /\
  (forall n s, In (n, s) (k_strs p) -> o n = match s with Some s => JSStr s | None => JSNull end) /\
  is_list (o "args"%string) (k_args p) /\ is_list (o "env"%string) (k_env p).

(** env is only given together with args. *)
Definition env_with_args (o : string -> jsval) : Prop :=
  o "env"%string = JSNull \/ exists l, o "args"%string = JSArr l.

(** A string of at most 254 characters that the shell does not change. *)
Definition plain_char (c : ascii) : Prop :=
  let n := nat_of_ascii c in
  48 <= n <= 57 \/ 65 <= n <= 90 \/ 97 <= n <= 122 \/ In c (lit "_-./=:,+@%").
Definition plain_text (s : str) : Prop := Forall plain_char s /\ List.length s <= 254.
Definition plain_call (p : node_call) : Prop :=
  (forall n s, In (n, Some s) (k_strs p) -> plain_text s) /\ Forall plain_text (k_args p) /\ Forall plain_text (k_env p).

(** ToInteger gives a 64-bit integer. *)
Definition int64_call (p : node_call) : Prop := forall n z, In (n, Some z) (k_ints p) -> (- 2 ^ 63 <= z < 2 ^ 63)%Z.

(** Values that the judger accepts. *)
Definition acceptable (p : node_call) : Prop :=
  (forall n z, In (n, Some z) (k_ints p) -> is_int z) /\
  (forall n s, In (n, Some s) (k_strs p) -> s <> []) /\
  Forall (fun s => s <> []) (k_args p) /\ Forall (fun s => s <> []) (k_env p) /\
  List.length (k_args p) <= 254 /\ List.length (k_env p) <= 255 /\ k_exe_path p <> None.

(** No NUL; the first 255 bytes are no C string. *)
Definition nul_free (s : str) : Prop := ~ In NUL s.
Definition too_long (s : str) : Prop := exists t u, s = t ++ u /\ nul_free t /\ List.length t = 255.

Definition or_else {A} (x : option A) (default : A) : A := match x with Some a => a | None => default end.

(** The configuration that the call asks for. *)
Definition requests (p : node_call) (c : config) : Prop :=
  max_cpu_time c = or_else (k_max_cpu_time p) (-1)%Z /\ max_real_time c = or_else (k_max_real_time p) (-1)%Z /\
  max_memory c = or_else (k_max_memory p) (-1)%Z /\ max_stack c = or_else (k_max_stack p) 16777216%Z /\
  max_process_number c = or_else (k_max_process_number p) (-1)%Z /\ max_output_size c = or_else (k_max_output_size p) (-1)%Z /\
  memory_limit_check_only c = (if (or_else (k_memory_limit_check_only p) 0 =? 0)%Z then 0%Z else 1%Z) /\
  Some (exe_path c) = k_exe_path p /\ input_path c = Some (or_else (k_input_path p) (lit "/dev/stdin")) /\
  output_path c = Some (or_else (k_output_path p) (lit "/dev/stdout")) /\
  error_path c = Some (or_else (k_error_path p) (lit "/dev/stderr")) /\ log_path c = or_else (k_log_path p) (lit "judger.log") /\
  vector (exe_path c :: k_args p) (args c) /\ vector (k_env p) (env c) /\
  seccomp_rule_name c = k_seccomp_rule_name p /\
  uid c = (or_else (k_uid p) 65534 mod 2 ^ 32)%Z /\ gid c = (or_else (k_gid p) 65534 mod 2 ^ 32)%Z.

(** Some string is too long. *)
Definition has_long (p : node_call) : Prop :=
  (exists n s, In (n, Some s) (k_strs p) /\ too_long s) \/ Exists too_long (k_args p) \/ Exists too_long (k_env p).


(** The types of array elements that are accepted (an object is asked for its property of the
    same name, an array is skipped). *)
Definition element_ok (key : string) (v : jsval) : Prop :=
  v = JSNull \/ (exists s, v = JSStr s) \/ (exists l, v = JSArr l) \/
  exists get, v = JSObj get /\ (get key = JSNull \/ exists s, get key = JSStr s).

(** Examples of objects: two paths; [a] and [b] with [c] between them. *)
Definition two_paths (x s : str) : string -> jsval := fun n =>
  if String.eqb n "exe_path" then JSStr x else if String.eqb n "input_path" then JSStr s else JSNull.
Definition between (c : ascii) (a b : str) : str := a ++ [c] ++ b.
(** [b] can be a command. *)
Definition command_word (b : str) : Prop := Forall plain_char b /\ ~ In "="%char b /\ b <> [] /\ forall r, In r reserved -> b <> lit r.

(** ** Output *)
Notation LF := "010"%char.
(** The lines [a] (with their newline) and the unfinished line [b]. *)
Definition lines (a : str) : Prop := a = [] \/ exists a', a = a' ++ [LF].

(** An output of the program: a line of JSON, then a NUL. *)
Definition forged (k : string) (z : Z) : str := lit "{" ++ [LF] ++ json_field k z ++ (lit "," ++ [LF]) ++ [NUL].
