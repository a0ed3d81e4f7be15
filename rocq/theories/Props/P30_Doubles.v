(** C83: options with numbers that have a fraction.  The code is in Model/Usage.v ([dbl_scan]); [strtod], which
    words count, what they are answered and what becomes of the array are in Spec/DoubleSpec.v. *)
From Coq Require Import ZArith Bool List Ascii String.
From Verif.Base Require Import CInt CStr.
From Verif.Model Require Import Usage.
From Verif.Spec Require Import DoubleSpec UsageSamples.
From Verif.Proofs Require Import DoubleProofs UsageSampleFacts.
Import ListNotations.
Open Scope list_scope.
Open Scope Z_scope.

(** Words handed to the option one after another: the count and the array are those of the first [maxcount]
    words that are numbers, every other word is an error and changes nothing. *)
Theorem C83_words : forall strtod words maxcount dval,
  Forall (in_bounds strtod) words -> 0 <= maxcount <= INT_MAX -> Z.of_nat (List.length dval) = maxcount ->
  let room := Z.to_nat maxcount in
  scan_words strtod maxcount 0 dval words =
  Val (answers strtod room words, Z.of_nat (List.length (counted strtod room words)),
       over_old (map (number strtod) (counted strtod room words)) dval).
Proof. exact scan_words_ok. Qed.
Print Assumptions C83_words.
(** An empty word is a number: strtod reads nothing of it, and nothing is all of it. *)
Theorem C83_empty_refuted : forall strtod maxcount count dval, snd (strtod []) = 0%nat ->
  0 <= count < maxcount -> maxcount <= INT_MAX -> Z.of_nat (List.length dval) = maxcount ->
  exists dval', dbl_scan strtod maxcount count dval (Some []) = Val (0, count + 1, dval').
Proof. exact empty_accepted. Qed.
Print Assumptions C83_empty_refuted.

Example sample_doubles : Forall (in_bounds sample_strtod) sample_words /\
  scan_words sample_strtod 3 0 [7; 8; 9] sample_words = Val ([0; 5; 0; 5; 0; 2], 3, [15; 8; 25]).
Proof. exact (conj sample_words_fine sample_scanned). Qed.
