(** C94, continued: several iterators over one table ([itrs_new], [itrs_destroy]: Spec/HashItrSpec.v). *)
From Coq Require Import ZArith Bool List Ascii String Arith Permutation.
From Verif.Base Require Import CInt CStr CMem.
From Verif.Model Require Import ArgMemory HashTable HashItr.
From Verif.Spec Require Import HashSpec HashItrSpec.
From Verif.Proofs Require Import HashClaims HashItrProofs.
Import ListNotations.
Open Scope list_scope.
Open Scope Z_scope.

(** After any history, any number of iterators can be there at a time; each of them meets every pair once, all in the same
    order; they can be given back in any order, before the table or after it, and then no memory is left. *)
Theorem C94_iterators : forall V hashfn eqfn loadlimit ok minsize (qs : list (ask V)) t h n,
  compatible hashfn eqfn -> minsize <= 2 ^ 30 -> Z.of_nat (List.length qs) < 4294967296 ->
  asked hashfn eqfn loadlimit ok minsize qs = MVal (t, h) ->
  (itrs_new ok n t h = MPanic /\ exists m, ok m = false) \/
  exists its h1 b l, itrs_new ok n t h = MVal (its, h1) /\ List.length its = n /\ all_done eqfn qs [] b /\ Permutation l b /\
    (b <> [] -> forall i fuel, In i its -> (List.length b <= fuel)%nat -> visit fuel t (snd i) = Some (Val l)) /\
    forall order, Permutation order its ->
      (exists h2 h3, itrs_destroy order h1 = MVal h2 /\ hashtable_destroy V t h2 = MVal h3 /\ h_live h3 = []) /\
      (exists h2 h3, hashtable_destroy V t h1 = MVal h2 /\ itrs_destroy order h2 = MVal h3 /\ h_live h3 = []).
Proof. exact c94_iterators. Qed.
Print Assumptions C94_iterators.

Example C94_iterators_case : exists t h its h1, asked hash_key equal_keys real_limit yes 32 sample_asks = MVal (t, h) /\
  itrs_new yes 2 t h = MVal (its, h1) /\ List.length its = 2%nat /\
  Forall (fun i => visit 1 t (snd i) = Some (Val [(lit "a", 3%nat)])) its /\ List.length (h_live h1) = (List.length (h_live h) + 2)%nat.
Proof. exact sample_iterators. Qed.
