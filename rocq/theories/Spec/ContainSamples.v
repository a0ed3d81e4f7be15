(** Concrete programs for the examples and refutations about running programs. *)
From Coq Require Import ZArith Bool List String.
From Verif.Base Require Import CInt CStr.
From Verif.Model Require Import Config Runner Seccomp Child Program.
From Verif.Spec Require Import ChildSamples.
Import ListNotations.
Open Scope Z_scope.

(** /bin/prog under the rule [nm] (none if [None]) as user [u]. *)
Definition sub_config (nm : option string) (u : Z) : config :=
  mkConfig 1000 2000 134217728 33554432 10 10000 0
           (lit "/bin/prog") (Some (lit "1.in")) (Some (lit "1.out")) (Some (lit "1.err"))
           [Ptr (lit "/bin/prog"); Null] [Null] (lit "judger.log") (option_map lit nm) u u.

(** The program as started by a root judger for which every call succeeds. *)
Definition sub_program (nm : option string) (u : Z) : proc :=
  match child_process (sample_child_env None) sample_log (sub_config nm u) sample_k0 with
  | CExec _ _ _ k => program_of k
  | _ => program_of sample_k0
  end.

Definition sub_ptr : Z := ce_exe_ptr (sample_child_env None).

(** Two of them, as processes 7 and 8. *)
Definition two (nm : option string) (u1 u2 : Z) : world :=
  fun p => match p with 7%nat => Some (inl (sub_program nm u1)) | 8%nat => Some (inl (sub_program nm u2)) | _ => None end.

(** A system call on x86-64 with the given arguments. *)
Definition call (nm : string) (l : list Z) : syscall := mkSys true nm (fun i => List.nth i l 0).
