(** C72: the sort of the library.  [arg_mgsort A compare esize ok fuel a i k h] sorts the
    elements [i..k] of the array [a] (Model/Sort.v); [MUB] would be an index outside the array,
    an int that overflows or a wrong free; [MPanic]: the process ended because malloc failed;
    [None] would be a recursion deeper than [fuel]. *)
From Coq Require Import ZArith List Arith Permutation Lia.
From Verif.Base Require Import CInt.
From Verif.Model Require Import ArgMemory Sort.
From Verif.Spec Require Import SortSpec.
From Verif.Proofs Require Import SortProofs.
Import ListNotations.
Open Scope Z_scope.

(** For every array whose bytes an int can count: the elements [i..k] are the same as before, in
    order when [compare] orders them; no other element changes; the memory is returned. *)
Theorem C72_sorts : forall A (compare : A -> A -> Z) esize ok pre l post h,
  0 < esize ->
  Z.of_nat (List.length (pre ++ l ++ post)) * esize <= 2147483647 ->
  2 * Z.of_nat (List.length (pre ++ l ++ post)) <= 2147483647 ->
  (NoDup (h_live h) /\ forall i, In i (h_live h) -> (i < h_calls h)%nat) ->
  forall fuel, (List.length l < fuel)%nat ->
  let sorted := arg_mgsort A compare esize ok fuel (pre ++ l ++ post)
    (Z.of_nat (List.length pre)) (Z.of_nat (List.length pre) + Z.of_nat (List.length l) - 1) h in
  (sorted = Some MPanic /\ exists n, ok n = false) \/
  (exists s h', sorted = Some (MVal (pre ++ s ++ post, h')) /\ Permutation l s /\
     (ordering compare -> in_order compare s) /\ h_live h' = h_live h).
Proof. exact c72_sorts. Qed.
Print Assumptions C72_sorts.

Example C72_ordering : ordering (fun x y : Z => x - y).
Proof. split; intros; lia. Qed.
Example C72_sample : arg_mgsort Z (fun x y => x - y) 4 (fun _ => true) 10 ([9; 8] ++ [3; 1; 2; 5; 4; 1] ++ [0]) 2 7 (mkHeap [] 0) =
  Some (MVal ([9; 8] ++ [1; 1; 2; 3; 4; 5] ++ [0], mkHeap [] 5)).
Proof. reflexivity. Qed.
Example C72_sample_failure : arg_mgsort Z (fun x y => x - y) 4 (fun n => negb (n =? 1)%nat) 10 [3; 1; 2; 5] 0 3 (mkHeap [] 0) = Some MPanic.
Proof. reflexivity. Qed.

(** It is not stable: of two elements that compare equal, the later one comes first. *)
Theorem C72_stable_refuted : exists (x y : nat * nat) h', x <> y /\
  let compare (a b : nat * nat) := Z.of_nat (fst a) - Z.of_nat (fst b) in
  compare x y = 0 /\ arg_mgsort (nat * nat) compare 8 (fun _ => true) 3 [x; y] 0 1 (mkHeap [] 0) = Some (MVal ([y; x], h')).
Proof. exact c72_not_stable. Qed.
Print Assumptions C72_stable_refuted.

(** The bound on the number of elements is needed: [i + k - 1] overflows for the last elements of an
    array of more than 2^30 elements, although every index is an int. *)
Theorem C72_large_refuted : forall ok fuel a h,
  arg_mgsort unit (fun _ _ => 0) 1 ok (S fuel) a 1073741823 1073741825 h = Some MUB.
Proof. exact c72_large. Qed.
Print Assumptions C72_large_refuted.
