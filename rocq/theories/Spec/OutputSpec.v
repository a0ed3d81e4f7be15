(** The JSON object for a result. *)
From Coq Require Import ZArith List String.
From Verif.Model Require Import Config.
From Verif.Spec Require Import Json.
Import ListNotations.

Definition field (k : string) (z : Z) : list jchar * json := (plain k, JInt z).
Definition result_object (r : result) : json :=
  JObject [field "cpu_time" (cpu_time r); field "real_time" (real_time r); field "memory" (memory r);
           field "signal" (signal r); field "exit_code" (exit_code r); field "error" (error r); field "result" (verdict r)].
