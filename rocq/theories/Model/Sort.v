(** src/argtable3.c:387-452: the merge sort.  The array is a list of elements (of
    [esize] bytes each in C); an index outside it, and an int that overflows, is [MUB]. *)
From Coq Require Import ZArith Bool List Arith.
From Verif.Base Require Import CInt.
From Verif.Model Require Import ArgMemory.
Import ListNotations.
Open Scope list_scope.
Open Scope Z_scope.

Section Sort.
Variable A : Type.
(** The comparison function; the size of an element. *)
Variable compare : A -> A -> Z.
Variable esize : Z.

(** The element at [&a[pos * esize]]. *)
Definition elem (a : list A) (pos : Z) : cres A :=
  cbind (int_op (pos * esize)) (fun _ =>
  if pos <? 0 then UB else match nth_error a (Z.to_nat pos) with Some x => Val x | None => UB end).
(** memcpy(&m[mpos * esize], x, esize) *)
Definition copy_to (m : list (option A)) (mpos : Z) (x : A) : cres (list (option A)) :=
  cbind (int_op (mpos * esize)) (fun _ => if mpos <? 0 then UB else put m (Z.to_nat mpos) (Some x)).

(** Lines 404-408 and 413-417: [n] elements from [pos] on; the new [pos], [m] and [mpos]. *)
Fixpoint copy_rest (n : nat) (a : list A) (pos : Z) (m : list (option A)) (mpos : Z) : cres (Z * list (option A) * Z) :=
  match n with
  | O => Val (pos, m, mpos)
  | S n => cbind (elem a pos) (fun x => cbind (copy_to m mpos x) (fun m => copy_rest n a (pos + 1) m (mpos + 1)))
  end.

(** Lines 401-432; [None]: more than [fuel] rounds. *)
Fixpoint merge_loop (fuel : nat) (a : list A) (j k ipos jpos : Z) (m : list (option A)) (mpos : Z) : option (cres (list (option A))) :=
  match fuel with
  | O => None
  | S fuel =>
      if (ipos <=? j) || (jpos <=? k) then
        if j <? ipos then
          match copy_rest (Z.to_nat (k - jpos + 1)) a jpos m mpos with
          | UB => Some UB
          | Val (jpos, m, mpos) => merge_loop fuel a j k ipos jpos m mpos
          end
        else if k <? jpos then
          match copy_rest (Z.to_nat (j - ipos + 1)) a ipos m mpos with
          | UB => Some UB
          | Val (ipos, m, mpos) => merge_loop fuel a j k ipos jpos m mpos
          end
        else
          match cbind (elem a ipos) (fun x => cbind (elem a jpos) (fun y =>
                if compare x y <? 0 then cbind (copy_to m mpos x) (fun m => Val (ipos + 1, jpos, m))
                else cbind (copy_to m mpos y) (fun m => Val (ipos, jpos + 1, m)))) with
          | UB => Some UB
          | Val (ipos, jpos, m) => merge_loop fuel a j k ipos jpos m (mpos + 1)
          end
      else Some (Val m)
  end.

(** Line 435: all of [m] to [&a[i * esize]]; reading an element of [m] that was not written is [UB]. *)
Fixpoint copy_back (a : list A) (pos : Z) (m : list (option A)) : cres (list A) :=
  match m with
  | [] => Val a
  | None :: _ => UB
  | Some x :: m =>
      cbind (int_op (pos * esize)) (fun _ =>
      cbind (if pos <? 0 then UB else put a (Z.to_nat pos) x) (fun a => copy_back a (pos + 1) m))
  end.

(** Lines 387-437.  Each round of the loop but the last advances, hence the fuel. *)
Definition merge (ok : nat -> bool) (a : list A) (i j k : Z) (h : heap) : option (mres (list A * heap)) :=
  obind (Some (lift (int_op (esize * (k - i + 1))))) (fun _ =>
  obind (Some (xmalloc ok h)) (fun '(id, h) =>
  obind (option_map lift (merge_loop (Z.to_nat (k - i + 2)) a j k i (j + 1) (repeat None (Z.to_nat (k - i + 1))) 0)) (fun m =>
  obind (Some (lift (copy_back a i m))) (fun a =>
  obind (Some (xfree id h)) (fun h => Some (MVal (a, h))))))).

(** Lines 439-452; [size] is not used. *)
Fixpoint arg_mgsort (ok : nat -> bool) (fuel : nat) (a : list A) (i k : Z) (h : heap) : option (mres (list A * heap)) :=
  match fuel with
  | O => None
  | S fuel =>
      if i <? k then
        obind (Some (lift (cbind (int_op (i + k)) (fun s => int_op (s - 1))))) (fun s =>
        let j := cdiv s 2 in
        obind (arg_mgsort ok fuel a i j h) (fun '(a, h) =>
        obind (arg_mgsort ok fuel a (j + 1) k h) (fun '(a, h) =>
        merge ok a i j k h)))
      else Some (MVal (a, h))
  end.
End Sort.
