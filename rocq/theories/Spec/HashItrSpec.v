(** A caller with several iterators over one table. *)
From Coq Require Import List.
From Verif.Base Require Import CInt CStr CMem.
From Verif.Model Require Import ArgMemory HashTable HashItr.
Import ListNotations.

(** [n] iterators, one after another. *)
Fixpoint itrs_new {V} (ok : nat -> bool) (n : nat) (t : htab V) (h : heap) : mres (list (nat * hitr) * heap) :=
  match n with
  | O => MVal ([], h)
  | S n => mbind (itr_new ok t h) (fun '(i, h) => mbind (itrs_new ok n t h) (fun '(l, h) => MVal (i :: l, h)))
  end.
(** All of them are given back, in this order. *)
Fixpoint itrs_destroy (l : list (nat * hitr)) (h : heap) : mres heap :=
  match l with [] => MVal h | i :: l => mbind (itr_destroy i h) (itrs_destroy l) end.
