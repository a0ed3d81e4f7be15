(** C97: what two judgements have to do with each other. *)
From Coq Require Import ZArith.
From Verif.Base Require Import CInt.
From Verif.Model Require Import Config Runner.
From Verif.Spec Require Import RunSpec CompareSpec.
From Verif.Proofs Require Import CompareProofs.
Open Scope Z_scope.

(** For the same answers of the system the numbers that are reported do not depend on the configuration. *)
Theorem C97_measurements : forall c c' e r ef r' ef',
  run c e = Returns (Val r) ef -> run c' e = Returns (Val r') ef' -> error r = 0 -> error r' = 0 ->
  cpu_time r = cpu_time r' /\ real_time r = real_time r' /\ memory r = memory r' /\
  signal r = signal r' /\ exit_code r = exit_code r'.
Proof. exact same_measurements. Qed.
Print Assumptions C97_measurements.
Example C97_measurements_example : exists r ef r' ef',
  run (cmp_config 500 2000 67108864) (cmp_env 7 0 700123 1024 0 1 0) = Returns (Val r) ef /\
  run (other_config 800 (-1) 1000) (cmp_env 7 0 700123 1024 0 1 0) = Returns (Val r') ef' /\
  error r = 0 /\ error r' = 0 /\ verdict r = 1 /\ verdict r' = 3 /\ cpu_time r = 700 /\ cpu_time r' = 700.
Proof. exact ex_measured. Qed.

(** More generous limits: a success stays one, as do a runtime error and a system error, and an exceeded limit can only become one that
    is looked at later, a runtime error or a success. *)
Theorem C97_more_generous : forall c c' e r ef r' ef', more_generous c c' ->
  run c e = Returns (Val r) ef -> run c' e = Returns (Val r') ef' -> error r = 0 -> error r' = 0 ->
  may_become (verdict r) (verdict r').
Proof. exact generous_verdict. Qed.
Print Assumptions C97_more_generous.
Example C97_more_generous_example : exists r ef r' ef',
  more_generous (cmp_config 500 2000 67108864) (cmp_config 1000 (-1) 67108864) /\
  run (cmp_config 500 2000 67108864) (cmp_env 7 0 700123 1024 0 1 0) = Returns (Val r) ef /\
  run (cmp_config 1000 (-1) 67108864) (cmp_env 7 0 700123 1024 0 1 0) = Returns (Val r') ef' /\
  error r = 0 /\ error r' = 0 /\ verdict r = 1 /\ verdict r' = 0.
Proof. exact ex_generous. Qed.

(** A more generous CPU limit alone need not help. *)
Theorem C97_helps_refuted : exists c c' e r ef r' ef', more_generous c c' /\
  run c e = Returns (Val r) ef /\ run c' e = Returns (Val r') ef' /\ error r = 0 /\ error r' = 0 /\ verdict r = 1 /\ verdict r' = 2.
Proof. exact other_limit. Qed.
Print Assumptions C97_helps_refuted.

(** Of a configuration that is accepted only the limits of CPU time, real time and memory have a part in the result: whatever the
    paths, arguments, users, rules and other limits are, the same answers give the same result, errors included. *)
Theorem C97_only_three_limits : forall c c' e, limits_accepted c -> limits_accepted c' -> same_limits c c' ->
  match run c e, run c' e with
  | Returns r _, Returns r' _ => r = r'
  | EntersChild _, EntersChild _ => True
  | _, _ => False
  end.
Proof. exact whole_results. Qed.
Print Assumptions C97_only_three_limits.
Example C97_only_three_limits_example :
  same_limits (cmp_config 500 2000 67108864) (other_config 500 2000 67108864) /\
  limits_accepted (cmp_config 500 2000 67108864) /\ limits_accepted (other_config 500 2000 67108864) /\
  exe_path (cmp_config 500 2000 67108864) <> exe_path (other_config 500 2000 67108864).
Proof. exact ex_only_limits. Qed.

(** The same program judged again at another time, with another process number and another system time, gives the same result. *)
Theorem C97_judged_again : forall k c e e' r ef r' ef', answers_alike k e e' -> env_ok e -> env_ok e' ->
  run c e = Returns (Val r) ef -> run c e' = Returns (Val r') ef' -> error r = 0 -> error r' = 0 -> r = r'.
Proof. exact alike. Qed.
Print Assumptions C97_judged_again.
Example C97_judged_again_example : exists r ef r' ef',
  answers_alike 86400 (cmp_env 7 0 700123 1024 5 1 10) (cmp_env 9 86400 700123 1024 5 1 10) /\
  env_ok (cmp_env 7 0 700123 1024 5 1 10) /\ env_ok (cmp_env 9 86400 700123 1024 5 1 10) /\
  run (cmp_config 500 2000 67108864) (cmp_env 7 0 700123 1024 5 1 10) = Returns (Val r) ef /\
  run (cmp_config 500 2000 67108864) (cmp_env 9 86400 700123 1024 5 1 10) = Returns (Val r') ef' /\
  error r = 0 /\ error r' = 0.
Proof. exact ex_alike. Qed.

(** A program that ends in the same way and uses no more time and memory, under limits at least as generous, is judged no worse. *)
Theorem C97_less_use : forall c c' e e' r ef r' ef', more_generous c c' -> uses_no_more e' e ->
  env_ok e -> env_ok e' -> env_fits e -> env_fits e' ->
  run c e = Returns (Val r) ef -> run c' e' = Returns (Val r') ef' -> error r = 0 -> error r' = 0 ->
  may_become (verdict r) (verdict r').
Proof. exact less_use. Qed.
Print Assumptions C97_less_use.
Example C97_less_use_example : exists r ef r' ef',
  uses_no_more (cmp_env 9 50 400000 1000 5 1 10) (cmp_env 7 0 700123 1024 5 3 10) /\
  env_ok (cmp_env 9 50 400000 1000 5 1 10) /\ env_ok (cmp_env 7 0 700123 1024 5 3 10) /\
  env_fits (cmp_env 9 50 400000 1000 5 1 10) /\ env_fits (cmp_env 7 0 700123 1024 5 3 10) /\
  run (cmp_config 800 2000 67108864) (cmp_env 7 0 700123 1024 5 3 10) = Returns (Val r) ef /\
  run (cmp_config 800 2000 67108864) (cmp_env 9 50 400000 1000 5 1 10) = Returns (Val r') ef' /\
  error r = 0 /\ error r' = 0 /\ verdict r = 2 /\ verdict r' = 0.
Proof. exact ex_less. Qed.

(** In microseconds this is not so: of two programs with the same CPU time and memory the one that was done in fewer microseconds can
    be the one whose real time is exceeded, because start and end are cut to milliseconds apart. *)
Theorem C97_microseconds_refuted : exists c e e' r ef r' ef', limits_accepted c /\ env_ok e /\ env_ok e' /\ env_fits e /\ env_fits e' /\
  e_wait4 e = e_wait4 e' /\ elapsed_us e < elapsed_us e' /\
  run c e = Returns (Val r) ef /\ run c e' = Returns (Val r') ef' /\ error r = 0 /\ error r' = 0 /\ verdict r = 2 /\ verdict r' = 0.
Proof. exact fewer_microseconds. Qed.
Print Assumptions C97_microseconds_refuted.
