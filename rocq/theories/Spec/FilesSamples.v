(** Concrete programs and histories for the examples and refutations about written files. *)
From Coq Require Import ZArith Bool List String.
From Verif.Base Require Import CInt CStr.
From Verif.Model Require Import Config Runner Seccomp Child Program Files.
From Verif.Spec Require Import ChildSamples ContainSamples.
Import ListNotations.
Open Scope list_scope.
Open Scope Z_scope.

(** /bin/prog under c_cpp as user 65534 with the given paths and output limit. *)
Definition io_config (inp out err : string) (size : Z) : config :=
  mkConfig 1000 2000 134217728 33554432 10 size 0
           (lit "/bin/prog") (Some (lit inp)) (Some (lit out)) (Some (lit err))
           [Ptr (lit "/bin/prog"); Null] [Null] (lit "judger.log") (Some (lit "c_cpp")) 65534 65534.
Definition io_state (inp out err : string) (size : Z) : kstate :=
  match child_process (sample_child_env None) sample_log (io_config inp out err size) sample_k0 with
  | CExec _ _ _ k => k
  | _ => sample_k0
  end.
Definition io_program (inp out err : string) (size : Z) : proc := program_of (io_state inp out err size).
Definition one (P : proc) : world := fun p => match p with 7%nat => Some (inl P) | _ => None end.

(** Files by name: "a" and "./a" are file 1, "b" is 2, the others are 0. *)
Definition names (p : str) : nat :=
  if str_eqb p (lit "a") || str_eqb p (lit "./a") then 1%nat else if str_eqb p (lit "b") then 2%nat else 0%nat.
Definition dies : nat -> bool := fun _ => true.

(** File 2 holds "input". *)
Definition full : disk := mkDisk (fun f => match f with 2%nat => lit "input" | _ => [] end) (fun _ => 0%nat).
