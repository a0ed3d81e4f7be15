(** Concrete configurations and environments used to show that the hypotheses
    of the theorems are met by non-trivial cases. *)
From Coq Require Import ZArith List String.
From Verif.Base Require Import CInt CStr.
From Verif.Model Require Import Config Runner.
Import ListNotations.
Open Scope Z_scope.

(** 1 s CPU, 2 s real, 128 MiB, 32 MiB stack, 10 processes, 10000 bytes. *)
Definition sample_config : config :=
  mkConfig 1000 2000 134217728 33554432 10 10000 0
           (lit "/bin/prog") (Some (lit "1.in")) (Some (lit "1.out")) (Some (lit "1.err"))
           [Ptr (lit "/bin/prog"); Ptr (lit "-x"); Null] [Ptr (lit "A=1"); Null]
           (lit "judger.log") (Some (lit "c_cpp")) 65534 65534.

(** Started at t = 1000.5 s, ended 120.25 ms later; 80 ms user, 10 ms system, 1500 KiB. *)
Definition sample_usage : rusage := mkRu (mkTv 0 80000) (mkTv 0 10000) 1500.
Definition sample_env (status : Z) (ru : rusage) : run_env :=
  mkRunEnv 0 (mkTv 1000 500000) 4242 0 (Some (status, ru)) (mkTv 1000 620250).

