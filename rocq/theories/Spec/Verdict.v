(** Specification of the verdict, independent of the model of src/runner.c.
    Only numbers: the codes a caller sees, the outcome of a process as the
    kernel defines it, and when a limit is exceeded. *)
From Coq Require Import ZArith Bool.
Open Scope Z_scope.

(** How a child process changed state (wait(2)). *)
Inductive outcome : Type :=
| Exited (code : Z)              (* normal termination, code 0..255 *)
| Killed (sig : Z) (core : bool) (* terminated by a signal, core dumped or not *)
| Stopped (sig : Z).             (* stopped by a signal, not terminated *)

Definition wf_outcome (o : outcome) : Prop :=
  match o with
  | Exited code => 0 <= code <= 255
  | Killed sig _ => 1 <= sig <= 64
  | Stopped sig => 1 <= sig <= 64
  end.

(** The status word Linux stores for it. *)
Definition wait_status (o : outcome) : Z :=
  match o with
  | Exited code => 256 * code
  | Killed sig core => sig + (if core then 128 else 0)
  | Stopped sig => 256 * sig + 127
  end.

(** A limit of -1 means unlimited; a value equal to the limit is within it. *)
Definition exceeded (limit value : Z) : Prop := limit <> -1 /\ limit < value.

(** The program failed on its own. *)
Definition failed (o : outcome) : Prop := o <> Exited 0.

(** The decision table: [v] is the verdict for outcome [o] with measured CPU
    time, real time (ms) and memory (bytes) under the three limits.
    0 success, 1 CPU time, 2 real time, 3 memory, 4 runtime error, 5 system error. *)
Definition verdict_table (lim_cpu lim_real lim_mem : Z) (o : outcome)
           (cpu real mem : Z) (v : Z) : Prop :=
  match o with
  | Killed 10 _ => v = 5
  | Killed 11 _ => (exceeded lim_mem mem /\ v = 3) \/ (~ exceeded lim_mem mem /\ v = 4)
  | _ =>
      (exceeded lim_cpu cpu /\ v = 1) \/
      (~ exceeded lim_cpu cpu /\ exceeded lim_real real /\ v = 2) \/
      (~ exceeded lim_cpu cpu /\ ~ exceeded lim_real real /\ exceeded lim_mem mem /\ v = 3) \/
      (~ exceeded lim_cpu cpu /\ ~ exceeded lim_real real /\ ~ exceeded lim_mem mem /\
         failed o /\ v = 4) \/
      (~ exceeded lim_cpu cpu /\ ~ exceeded lim_real real /\ ~ exceeded lim_mem mem /\
         ~ failed o /\ v = 0)
  end.

(** Limits run() is documented to accept. *)
Definition limit_ok (z : Z) : Prop := z = -1 \/ 1 <= z.

(** An instant in microseconds, and well-formed (sec, usec) pairs. The bound on
    seconds is far beyond any clock and excludes 64-bit overflow. *)
Definition usec (sec us : Z) : Z := sec * 1000000 + us.
Definition instant_ok (sec us : Z) : Prop := 0 <= sec < 2 ^ 50 /\ 0 <= us < 1000000.
