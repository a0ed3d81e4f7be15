(** Samples for the option objects. *)
From Coq Require Import ZArith Bool List.
From Verif.Base Require Import CInt.
From Verif.Model Require Import ArgObject.
From Verif.Spec Require Import ObjectSpec.
Import ListNotations.
Open Scope Z_scope.

(** arg_intn(..., 1, 2, ...) in a block at 4096; then: 7, a refused word, 300, one too many. *)
Definition sample_h : Z -> Z := fun x => 1000 + x.
Definition sample_int : cres block := make KInt sample_h 4096 (fun x => x mod 256) 0 1 2.
Definition sample_uses : list use :=
  [Scan (Accepted [le_bytes 4 7]); Scan (Refused 3); Scan (Accepted [le_bytes 4 300]); Scan (Accepted [le_bytes 4 9])].
(** arg_end(2) and three errors. *)
Definition sample_end (n : Z) : cres block :=
  cbind (make KEnd sample_h 4096 (fun x => x mod 256) 0 1 n) (fun b => reset KEnd b).
Definition sample_errors : list (Z * Z * Z) := [(50, 4, 60); (51, 5, 61); (52, 6, 62)].
Definition defined {A} (r : cres A) : bool := match r with Val _ => true | UB => false end.
