(** src/main.c. *)
From Coq Require Import ZArith Bool List Ascii String Arith.
From Verif.Base Require Import CInt CStr.
From Verif.Model Require Import Config ArgInt Permute Getopt Argtable.
Import ListNotations.
Open Scope list_scope.
Open Scope nat_scope.

Definition lit0 (name : string) : entry := mkEntry ALit None (Some (lit name)) 0 1 [].
Definition int0 (name : string) : entry := mkEntry AInt None (Some (lit name)) 0 1 [].
Definition strn (name : string) (min max : nat) : entry := mkEntry AStr None (Some (lit name)) min max [].

(** src/main.c:14-37: the option table, in this order. *)
Definition arg_table : list entry :=
  [ lit0 "help"; lit0 "version";
    int0 "max_cpu_time"; int0 "max_real_time"; int0 "max_memory"; int0 "memory_limit_check_only";
    int0 "max_stack"; int0 "max_process_number"; int0 "max_output_size";
    strn "exe_path" 1 1; strn "input_path" 0 1; strn "output_path" 0 1; strn "error_path" 0 1;
    strn "args" 0 255; strn "env" 0 255;
    strn "log_path" 0 1; strn "seccomp_rule_name" 0 1;
    int0 "uid"; int0 "gid" ].

(** src/main.c:39: arg_end(10). *)
Definition end_max : nat := 10.

(** The entries by their C variable. *)
Definition I_help := 0.
Definition I_version := 1.
Definition I_max_cpu_time := 2.
Definition I_max_real_time := 3.
Definition I_max_memory := 4.
Definition I_memory_limit_check_only := 5.
Definition I_max_stack := 6.
Definition I_max_process_number := 7.
Definition I_max_output_size := 8.
Definition I_exe_path := 9.
Definition I_input_path := 10.
Definition I_output_path := 11.
Definition I_error_path := 12.
Definition I_args := 13.
Definition I_env := 14.
Definition I_log_path := 15.
Definition I_seccomp_rule_name := 16.
Definition I_uid := 17.
Definition I_gid := 18.

Definition vals (t : list entry) (i : nat) : list aval :=
  match nth_error t i with Some e => e_vals e | None => [] end.
Definition count (t : list entry) (i : nat) : nat := List.length (vals t i).

(** [ival[k]]; reading an element that was not stored is [UB]. *)
Definition ival (t : list entry) (i k : nat) : cres Z :=
  match nth_error (vals t i) k with Some (VInt z) => Val z | _ => UB end.

(** [sval[k]]: initialised to "" for all [k] < maxcount (src/argtable3.c:4645-4646). *)
Definition sval (t : list entry) (i k : nat) : cres str :=
  match nth_error (vals t i) k with
  | Some (VStr s) => Val s
  | Some _ => Val []
  | None => match nth_error t i with
            | Some e => if k <? e_max e then Val [] else UB
            | None => UB
            end
  end.

(** src/main.c:69-73 and its repetitions. *)
Definition int_field (t : list entry) (i : nat) (default : Z) : cres Z :=
  if 0 <? count t i then ival t i 0 else Val default.
(** src/main.c:113-117 and its repetitions. *)
Definition str_field (t : list entry) (i : nat) (default : option str) : cres (option str) :=
  if 0 <? count t i then cbind (sval t i 0) (fun s => Val (Some s)) else Val default.

(** An assignment to element [i] of an array in struct config. *)
Definition set_cell (i : nat) (c : cell) (a : list cell) : cres (list cell) :=
  if i <? List.length a then Val (upd i c a) else UB.

(** src/main.c:131-135 and 139-143: elements [i], [i+1], ... of the array are set
    to sval[k], sval[k+1], ... ([n] of them). *)
Fixpoint fill (t : list entry) (e : nat) (n i k : nat) (a : list cell) : cres (list cell) :=
  match n with
  | 0 => Val a
  | S n => cbind (sval t e k) (fun s => cbind (set_cell i (Ptr s) a) (fill t e n (S i) (S k)))
  end.

(** src/main.c:66-168: [_config], a local variable, is uninitialised before. *)
Definition make_config (t : list entry) : cres config :=
  cbind (int_field t I_max_cpu_time UNLIMITED) (fun cpu =>
  cbind (int_field t I_max_real_time UNLIMITED) (fun real =>
  cbind (int_field t I_max_memory UNLIMITED) (fun mem =>
  cbind (if 0 <? count t I_memory_limit_check_only
         then cbind (ival t I_memory_limit_check_only 0) (fun z => Val (if (z =? 0)%Z then 0%Z else 1%Z))
         else Val 0%Z) (fun check_only =>
  cbind (int_field t I_max_stack (16 * 1024 * 1024)%Z) (fun stack =>
  cbind (int_field t I_max_process_number UNLIMITED) (fun nproc =>
  cbind (int_field t I_max_output_size UNLIMITED) (fun out_size =>
  cbind (sval t I_exe_path 0) (fun exe =>
  cbind (str_field t I_input_path (Some (lit "/dev/stdin"))) (fun input =>
  cbind (str_field t I_output_path (Some (lit "/dev/stdout"))) (fun output =>
  cbind (str_field t I_error_path (Some (lit "/dev/stderr"))) (fun err =>
  cbind (set_cell 0 (Ptr exe) (repeat Uninit ARGS_MAX_NUMBER)) (fun a =>
  cbind (fill t I_args (count t I_args) 1 0 a) (fun a =>
  cbind (set_cell (1 + count t I_args) Null a) (fun a =>
  cbind (fill t I_env (count t I_env) 0 0 (repeat Uninit ENV_MAX_NUMBER)) (fun v =>
  cbind (set_cell (count t I_env) Null v) (fun v =>
  cbind (str_field t I_log_path (Some (lit "judger.log"))) (fun log =>
  cbind (str_field t I_seccomp_rule_name None) (fun rule =>
  cbind (if 0 <? count t I_uid then cbind (ival t I_uid 0) (fun z => Val (cast_u32 z)) else Val 65534%Z) (fun uid =>
  cbind (if 0 <? count t I_gid then cbind (ival t I_gid 0) (fun z => Val (cast_u32 z)) else Val 65534%Z) (fun gid =>
  Val (mkConfig cpu real mem stack nproc out_size check_only exe input output err a v
         (match log with Some s => s | None => [] end) rule uid gid))))))))))))))))))))).

(** What main does after parsing (src/main.c:47-191): print the usage or the
    version and exit with 0, print the errors and exit with 1, or call run() with
    a configuration, print its result and exit with 0. *)
Inductive action : Type :=
| Usage
| Version
| Errors (errs : list perror)
| Run (c : config).

(** src/main.c:13-170.  [None]: parsing does not finish within [fuel] rounds. *)
Definition main_ (fuel : nat) (posix : bool) (argv : list str) : option (cres action) :=
  match arg_parse fuel posix end_max argv arg_table with
  | None => None
  | Some r => Some (cbind r (fun '(t, errs) =>
      if 0 <? count t I_help then Val Usage
      else if 0 <? count t I_version then Val Version
      else if 0 <? List.length errs then Val (Errors errs)
      else cbind (make_config t) (fun c => Val (Run c))))
  end.

Definition exit_status (a : action) : Z := match a with Errors _ => 1%Z | _ => 0%Z end.

(** Parsing ends and main does [a]. *)
Definition does (posix : bool) (argv : list str) (a : cres action) : Prop :=
  exists fuel, main_ fuel posix argv = Some a.
