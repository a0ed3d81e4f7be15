(** Sample calls and histories. *)
From Coq Require Import ZArith NArith List Ascii String.
From Verif.Base Require Import CInt CStr CMem.
From Verif.Model Require Import Logger.
Import ListNotations.
Open Scope list_scope.
Open Scope nat_scope.

Definition sample_date : str := lit "2026-01-31 23:59:59".
Definition call_a : call := error_exit_call (lit "runner.c") 49 (Some sample_date) "INVALID_CONFIG".
Definition call_b : call :=
  child_error_exit_call (lit "child.c") 174 (Some sample_date) (lit "No such file or directory") "EXECVE_FAILED".

Definition line_a : string := "FATAL [2026-01-31 23:59:59] [runner.c:49]Error: INVALID_CONFIG".
Definition line_b : string :=
  "FATAL [2026-01-31 23:59:59] [child.c:174]Error: System errno: No such file or directory; Internal errno: EXECVE_FAILED".
Definition nl : str := ["010"%char].

Definition bytes_of (p n : nat) : list event := repeat (Byte p) n.

(** Two processes with their own descriptions; the second waits. *)
Definition history : list event :=
  [Start 0 call_a; Start 1 call_b; Locked 0] ++ bytes_of 0 63 ++ [Wrote 0; Unlocked 0; Locked 1] ++ bytes_of 1 119 ++
  [Wrote 1; Unlocked 1].

(** The first write fails. *)
Definition failing_history : list event := [Start 0 call_a; Start 1 call_b; Locked 0; WriteFails 0; LockFails 1].

(** Both share a description, as a judger and its child do. *)
Definition shared_history : list event :=
  [Start 0 call_a; Start 1 call_b; Locked 0; Locked 1; Byte 0; Byte 1] ++ bytes_of 0 62 ++ [Wrote 0; Unlocked 0] ++
  bytes_of 1 118 ++ [Wrote 1; Unlocked 1].

(** A text that fills the buffer. *)
Definition long_call (n : N) : call := mkCall 2 (lit "x.c") 7 (repeat "a"%char (N.to_nat n)) (Some sample_date).
