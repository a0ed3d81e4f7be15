(** The Python binding: bindings/Python/_judger/__init__.py:29-85.

    A Python string is represented by the bytes it is passed to the judger as
    (os.fsencode); characters without an encoding are not modelled. *)
From Coq Require Import ZArith Bool List Ascii String.
From Verif.Base Require Import CStr.
From Verif.Model Require Import Messages.
Import ListNotations.
Open Scope list_scope.

(** Python values, as far as the binding distinguishes them. *)
Inductive pyval : Type :=
| PInt (z : Z) | PBool (b : bool) | PStr (s : str) | PNone | PList (l : list pyval) | POther.

(** isinstance(v, int): bool is a subclass. *)
Definition isinstance_int (v : pyval) : bool := match v with PInt _ | PBool _ => true | _ => false end.
Definition isinstance_str (v : pyval) : bool := match v with PStr _ => true | _ => false end.

(** "{}".format(v) *)
Definition format (v : pyval) : str :=
  match v with
  | PInt z => fmt_d z
  | PBool true => lit "True"
  | PBool false => lit "False"
  | PStr s => s
  | _ => lit "?"
  end.

(** "--{}={}".format(var, value) *)
Definition option_ (var : string) (v : pyval) : str := lit "--" ++ lit var ++ lit "=" ++ format v.

(** The variables of run(): vars()[var]. *)
Definition locals : Type := string -> pyval.

(** [None]: ValueError. *)
Definition then_ {A B} (x : option A) (f : A -> option B) : option B := match x with Some a => f a | None => None end.
Fixpoint each {A} (f : A -> option (list str)) (l : list A) : option (list str) :=
  match l with
  | [] => Some []
  | a :: l => then_ (f a) (fun x => then_ (each f l) (fun y => Some (x ++ y)))
  end.

(** Lines 54-61. *)
Definition list_var (vars : locals) (var : string) : option (list str) :=
  match vars var with
  | PList l => each (fun item => if isinstance_str item then Some [option_ var item] else None) l
  | _ => None
  end.

(** Lines 63-68; UNLIMITED is -1. *)
Definition int_var (vars : locals) (var : string) : option (list str) :=
  let value := vars var in
  if negb (isinstance_int value) then None
  else match value with
       | PInt (-1) => Some []
       | _ => Some [option_ var value]
       end.

(** Lines 70-74. *)
Definition str_var (vars : locals) (var : string) : option (list str) :=
  if isinstance_str (vars var) then Some [option_ var (vars var)] else None.

(** Lines 76-79. *)
Definition rule_var (vars : locals) : option (list str) :=
  match vars "seccomp_rule_name"%string with
  | PStr [] => Some []
  | PStr s => Some [option_ "seccomp_rule" (PStr s)]
  | PNone => Some []
  | _ => None
  end.

Definition str_list_vars : list string := ["args"; "env"]%string.
Definition int_vars : list string :=
  ["max_cpu_time"; "max_real_time"; "max_memory"; "max_stack"; "max_output_size"; "max_process_number"; "uid"; "gid";
   "memory_limit_check_only"]%string.
Definition str_vars : list string := ["exe_path"; "input_path"; "output_path"; "error_path"; "log_path"]%string.

(** Lines 46-79. *)
Definition proc_args (vars : locals) : option (list str) :=
  then_ (each (list_var vars) str_list_vars) (fun a =>
  then_ (each (int_var vars) int_vars) (fun b =>
  then_ (each (str_var vars) str_vars) (fun c =>
  then_ (rule_var vars) (fun d =>
  Some (lit "/usr/lib/judger/libjudger.so" :: a ++ b ++ c ++ d))))).

(** subprocess.Popen, line 81: a null byte in an argument is a ValueError. *)
Definition has_nul (s : str) : bool := existsb (aeqb NUL) s.
Definition command (vars : locals) : option (list str) :=
  then_ (proc_args vars) (fun argv => if existsb has_nul argv then None else Some argv).
