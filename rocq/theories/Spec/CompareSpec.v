(** Comparing two judgements. *)
From Coq Require Import ZArith.
From Verif.Model Require Import Config Runner.
From Verif.Spec Require Import RunSpec.
Open Scope Z_scope.

(** The limit [l'] allows whatever [l] allows. *)
Definition allows_more (l l' : Z) : Prop := l' = -1 \/ (l <> -1 /\ l <= l').
Definition more_generous (c c' : config) : Prop :=
  allows_more (max_cpu_time c) (max_cpu_time c') /\ allows_more (max_real_time c) (max_real_time c') /\
  allows_more (max_memory c) (max_memory c').

(** What a verdict may become under more generous limits: the same; or, instead of an exceeded limit, one that is looked at later
    (1 CPU time, 2 real time, 3 memory), a runtime error (4) or a success (0). *)
Definition may_become (v v' : Z) : Prop := v' = v \/ ((v = 1 \/ v = 2 \/ v = 3) /\ (v < v' <= 4 \/ v' = 0)).

(** The same three limits. *)
Definition same_limits (c c' : config) : Prop :=
  max_cpu_time c = max_cpu_time c' /\ max_real_time c = max_real_time c' /\ max_memory c = max_memory c'.

(** The system answers alike: the same end of the program, the same use of user time and memory, and clocks that differ by [k]
    seconds.  Process numbers and system time may differ. *)
Definition answers_alike (k : Z) (e e' : run_env) : Prop :=
  tv_sec (e_start e') = tv_sec (e_start e) + k /\ tv_usec (e_start e') = tv_usec (e_start e) /\
  tv_sec (e_end e') = tv_sec (e_end e) + k /\ tv_usec (e_end e') = tv_usec (e_end e) /\
  exists st ru ru', e_wait4 e = Some (st, ru) /\ e_wait4 e' = Some (st, ru') /\
    ru_utime ru = ru_utime ru' /\ ru_maxrss ru = ru_maxrss ru'.

(** The program ends in the same way in both, and in [e'] uses no more than in [e]: the time that passed and the CPU time in whole
    milliseconds, the memory as the system gives it. *)
Definition uses_no_more (e' e : run_env) : Prop :=
  elapsed_ms e' <= elapsed_ms e /\
  exists st ru ru', e_wait4 e = Some (st, ru) /\ e_wait4 e' = Some (st, ru') /\
    cpu_ms ru' <= cpu_ms ru /\ ru_maxrss ru' <= ru_maxrss ru.
