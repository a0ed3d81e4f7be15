(** Sorted arrays, for C72. *)
From Coq Require Import ZArith List.
Import ListNotations.
Open Scope Z_scope.

(** A comparison function as for qsort: negative, zero or positive as [x] comes before, with or after [y], consistently. *)
Record ordering {A} (compare : A -> A -> Z) : Prop := mkOrdering {
  or_opposite : forall x y, compare x y < 0 <-> 0 < compare y x;
  or_transitive : forall x y z, compare x y <= 0 -> compare y z <= 0 -> compare x z <= 0
}.

(** No element comes after a later one. *)
Definition in_order {A} (compare : A -> A -> Z) (s : list A) : Prop :=
  forall p q x y, (p < q)%nat -> nth_error s p = Some x -> nth_error s q = Some y -> compare x y <= 0.
