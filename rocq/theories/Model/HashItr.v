(** src/argtable3.c:730-755: the memory of the iterators of a hash table, on top of Model/HashTable.v. *)
From Coq Require Import ZArith Bool List.
From Verif.Base Require Import CInt CStr CMem.
From Verif.Model Require Import ArgMemory HashTable.
Import ListNotations.

(** arg_hashtable_itr_create, lines 730-751: the block of the iterator and what is in it. *)
Definition itr_new {V} (ok : nat -> bool) (t : htab V) (h : heap) : mres ((nat * hitr) * heap) :=
  mbind (xmalloc ok h) (fun '(id, h) => MVal ((id, itr_create V t), h)).
(** arg_hashtable_itr_destroy, lines 753-755. *)
Definition itr_destroy (i : nat * hitr) (h : heap) : mres heap := xfree (fst i) h.
