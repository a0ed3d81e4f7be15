(** C79: option objects in memory. *)
From Coq Require Import ZArith Bool List.
From Verif.Base Require Import CInt.
From Verif.Model Require Import ArgObject.
From Verif.Spec Require Import ObjectSpec ObjectSamples.
From Verif.Proofs Require Import ObjectFacts.
Import ListNotations.
Open Scope Z_scope.

(** C79.  A constructor given counts it can cope with makes an object without touching memory outside the
    block it allocated, wherever the block is and whatever it contained; and every later sequence of words
    and resets gives the codes, the count and the entries that a count with arrays of that many values
    gives.  At most the maximum is counted, refused words change nothing, the check compares the count
    with the minimum, and the names, texts and functions of the option stay. *)
Theorem C79_object :
  forall K h base junk empty mincount maxcount size,
  K <> KEnd -> good_counts K mincount maxcount ->
  nbytes K (places K mincount maxcount) = Val size -> allocated base size ->
  exists b o, make K h base junk empty mincount maxcount = Val b /\ o_count o = 0 /\
    (forall j i, (j < arrays K)%nat -> 0 <= i < places K mincount maxcount ->
       (K = KStr \/ K = KRex \/ K = KFile -> o_entry o j i = le_bytes 8 empty) /\
       (K = KDate -> o_entry o j i = repeat 0 56)) /\
    forall us, Forall (use_fits K) us ->
    let (codes, o') := all_used (match K with KLit => false | _ => true end) (places K mincount maxcount) o us in
    exists b', uses K b us = Val (codes, b') /\
      count_of K b' = Val (o_count o') /\
      check K b' = Val (if o_count o' <? mincount then ARG_ERR_MINCOUNT else 0) /\
      (forall j i, (j < arrays K)%nat -> 0 <= i < places K mincount maxcount -> entry_of K b' j i = Val (o_entry o' j i)) /\
      (forall x, In x [8; 16; 24; 32; 56; 64; 72; 80] -> 0 <= h x < U64_MOD -> load_ptr b' x = Val (h x)) /\
      0 <= o_count o' <= places K mincount maxcount.
Proof. exact object_places. Qed.
Print Assumptions C79_object.

(** The object that collects errors: made with an even number of places, it keeps the errors reported in
    order; when there are more than it has places for, the last place says so, naming the object itself. *)
Theorem C79_errors :
  forall h base junk empty maxcount size,
  good_counts KEnd 1 maxcount -> 1 <= maxcount -> nbytes KEnd maxcount = Val size -> allocated base size ->
  exists b b0, make KEnd h base junk empty 1 maxcount = Val b /\ reset KEnd b = Val b0 /\
    forall es, exists b', registers b0 es = Val b' /\
      count_of KEnd b' = Val (Z.of_nat (length (errors_kept maxcount base es))) /\
      (forall i parent error argval, nth_error (errors_kept maxcount base es) i = Some (parent, error, argval) ->
         entry_of KEnd b' 0 (Z.of_nat i) = Val (le_bytes 4 error) /\
         entry_of KEnd b' 1 (Z.of_nat i) = Val (le_bytes 8 parent) /\
         entry_of KEnd b' 2 (Z.of_nat i) = Val (le_bytes 8 argval)) /\
      (forall x, In x [8; 16; 24; 32; 56; 64; 72; 80] -> 0 <= h x < U64_MOD -> load_ptr b' x = Val (h x)).
Proof. exact errors_fact. Qed.
Print Assumptions C79_errors.

(** Not for every maximum.  A negative one makes the constructor write behind the block ... *)
Theorem C79_negative_refuted :
  forall K h base junk empty, K = KInt \/ K = KStr \/ K = KFile \/ K = KDate ->
  make K h base junk empty (-1) (-1) = UB.
Proof. exact negative_fact. Qed.
Print Assumptions C79_negative_refuted.

(** ... the largest one overflows in arg_dbln ... *)
Theorem C79_overflow_refuted :
  forall h base junk empty mincount, mincount <= INT_MAX -> make KDbl h base junk empty mincount INT_MAX = UB.
Proof. exact overflow_fact. Qed.
Print Assumptions C79_overflow_refuted.

(** ... an odd one gives arg_end pointers that are not aligned ... *)
Theorem C79_odd_refuted :
  exists parent error argval, defined (sample_end 3) = true /\
  cbind (sample_end 3) (fun b => register b parent error argval) = UB.
Proof. exists 50, 4, 60. split; vm_compute; reflexivity. Qed.
Print Assumptions C79_odd_refuted.

(** ... and with no place at all the first error is written in front of the arrays. *)
Theorem C79_zero_refuted :
  exists parent error argval, defined (sample_end 0) = true /\
  cbind (sample_end 0) (fun b => register b parent error argval) = UB.
Proof. exists 50, 4, 60. split; vm_compute; reflexivity. Qed.
Print Assumptions C79_zero_refuted.

(** Samples: two integers; two places for three errors. *)
Example C79_sample_ok : good_counts KInt 1 2 /\ nbytes KInt 2 = Val 120 /\ allocated 4096 120 /\ Forall (use_fits KInt) sample_uses.
Proof. repeat split; try (vm_compute; congruence). repeat constructor. Qed.
Example C79_sample_codes :
  cbind sample_int (fun b => cbind (uses KInt b sample_uses) (fun '(codes, b) =>
    cbind (count_of KInt b) (fun c => cbind (entry_of KInt b 0 0) (fun x => cbind (entry_of KInt b 0 1) (fun y =>
    cbind (load_ptr b 16) (fun p => Val (codes, c, x, y, p)))))))
  = Val ([0; 3; 0; 2], 2, [7; 0; 0; 0], [44; 1; 0; 0], 1016).
Proof. vm_compute. reflexivity. Qed.
Example C79_sample_errors :
  good_counts KEnd 1 2 /\ allocated 4096 168 /\ nbytes KEnd 2 = Val 168 /\
  errors_kept 2 4096 sample_errors = [(50, 4, 60); (4096, 1, 0)].
Proof. repeat split; try (vm_compute; congruence). Qed.
