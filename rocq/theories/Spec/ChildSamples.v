(** Concrete kernel states and oracles for the examples beside the theorems. *)
From Coq Require Import ZArith List String.
From Verif.Base Require Import CInt CStr.
From Verif.Model Require Import Config Runner Seccomp Child.
Import ListNotations.
Open Scope Z_scope.

(** A root judger with a terminal on 0-2 and its log file on descriptor 3. *)
Definition sample_k0 : kstate :=
  mkK [Some (mkOf 0 (lit "/dev/tty") MOther); Some (mkOf 0 (lit "/dev/tty") MOther);
       Some (mkOf 0 (lit "/dev/tty") MOther); Some (mkOf 1 (lit "judger.log") MAppend)]
      2 (fun _ => (18446744073709551615, 18446744073709551615))
      (mkCred 0 0 0 0 0 0 [0; 4; 27]) [] 0 [].

Definition sample_log : option stream := Some (mkStream 1 3).

(** Every call succeeds except, possibly, call number [bad]. *)
Definition sample_child_env (bad : option nat) : child_env :=
  mkCE (fun n => match bad with Some b => negb (Nat.eqb n b) | None => true end)
       (fun _ => true) true 140737488355328 true true 4096 true [].
