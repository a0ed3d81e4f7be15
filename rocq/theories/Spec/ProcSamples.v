(** Histories of the machine used as examples and counterexamples for C86 and C87. *)
From Coq Require Import ZArith Bool List Arith String.
From Verif.Base Require Import CInt CStr.
From Verif.Model Require Import Config Runner Processes.
Import ListNotations.
Open Scope list_scope.
Open Scope Z_scope.

(** Limits for CPU time (ms), memory (bytes) and processes; a user; a profile. *)
Definition cfgr (rule : option str) (cpu mem procs user : Z) : config :=
  mkConfig cpu UNLIMITED mem 1048576 procs UNLIMITED 0 (lit "/prog") None None None [] [] (lit "log") rule user 4294967295.
Definition cfg : Z -> Z -> Z -> Z -> config := cfgr None.
Definition sets_up (x : nat) (c : config) (m : Z) : list event := [Starts x c m; Limits x; Drops x false; Execs x].

(** A program that has two processes, and one that may have one, run as the same user:
    the second is never executed. *)
Definition crowded : list event :=
  sets_up 0 (cfg 1000 1000000 2 1000) 100 ++
  [Forks 0 1 "fork"; Starts 2 (cfg 1000 1000000 1 1000) 100; Limits 2; Drops 2 true; Refused 2 SIGUSR1].
(** A program makes a child and waits for it. *)
Definition family_life : list event :=
  sets_up 0 (cfg 1000 1000000 3 1000) 100 ++
  [Runs 0 5000; Forks 0 1 "clone"; Runs 1 700000; Holds 1 900; Forks 1 2 "vfork"; Runs 2 600000; Ends 2 0; Waits 1 2;
   Ends 1 0; Waits 0 1; Ends 0 0].

(** A program under a profile that leaves it no call to make processes. *)
Definition confined_life : list event :=
  sets_up 0 (cfgr (Some (lit "c_cpp")) 1000 1000000 3 1000) 100 ++ [Runs 0 700000; Holds 0 900; Ends 0 0].

(** k children, one after the other; each computes for t, nobody waits for them. *)
Fixpoint one_by_one (call : string) (i k : nat) (t : Z) : list event :=
  match k with
  | O => []
  | S k => Forks 0 (S i) call :: Runs (S i) t :: Ends (S i) 0 :: Vanishes (S i) :: one_by_one call (S i) k t
  end.
(** k children at the same time, each has m KiB. *)
Fixpoint at_once (call : string) (i k : nat) (m : Z) : list event :=
  match k with
  | O => []
  | S k => Forks 0 (S i) call :: Holds (S i) m :: at_once call (S i) k m
  end.
