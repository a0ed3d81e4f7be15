(** C94: the hash table of the library for any caller.  [asked hashfn eqfn loadlimit ok minsize qs]: what a program holds that
    creates a table and makes the requests [qs] (Spec/HashSpec.v); [MUB] would be an access outside an array or a
    wrong free; [MPanic]: the process ended because malloc failed. *)
From Coq Require Import ZArith Bool List Ascii String Arith Permutation.
From Verif.Base Require Import CInt CStr CMem.
From Verif.Model Require Import ArgMemory HashTable.
From Verif.Spec Require Import HashSpec.
From Verif.Proofs Require Import HashClaims.
Import ListNotations.
Open Scope list_scope.
Open Scope Z_scope.

(** For every hash function, every equality that it respects and every history: the table holds the pairs that were inserted and not
    removed, with the values they were changed to; a search finds one of the pairs with the key, exactly if there is one; the
    count is their number; a walk meets each of them once; the end returns all memory. *)
Theorem C94_collection : forall V hashfn eqfn loadlimit ok minsize (qs : list (ask V)), compatible hashfn eqfn -> minsize <= 2 ^ 30 ->
  (asked hashfn eqfn loadlimit ok minsize qs = MPanic /\ exists n, ok n = false) \/
  (exists t h b, asked hashfn eqfn loadlimit ok minsize qs = MVal (t, h) /\ all_done eqfn qs [] b /\
     (forall k, exists r, hashtable_search V hashfn eqfn k t = Val r /\
        match r with
        | Some v => exists k', eqfn k k' = true /\ In (k', v) b
        | None => lacks eqfn b k
        end) /\
     hashtable_count V t = cast_u32 (Z.of_nat (List.length b)) /\
     (Z.of_nat (List.length qs) < 4294967296 -> exists l, Permutation l b /\ forall fuel, (List.length b <= fuel)%nat -> visited fuel t = Some (Val l)) /\
     exists h', hashtable_destroy V t h = MVal h' /\ h_live h' = []).
Proof. exact c94_bag. Qed.
Print Assumptions C94_collection.

(** It is a map for callers who never insert a key that is there: the last request about a key decides. *)
Theorem C94_map : forall V hashfn eqfn loadlimit ok minsize (qs : list (ask V)) t h,
  compatible hashfn eqfn -> equivalence eqfn -> minsize <= 2 ^ 30 -> never_twice eqfn qs ->
  asked hashfn eqfn loadlimit ok minsize qs = MVal (t, h) -> forall k, hashtable_search V hashfn eqfn k t = Val (value_of eqfn qs k).
Proof. exact c94_map. Qed.
Print Assumptions C94_map.

(** A new table is empty and has more than [minsize] chains; above 2^30 there is none. *)
Theorem C94_create : forall V hashfn (loadlimit : Z -> Z) ok minsize,
  (minsize <= 2 ^ 30 -> forall t h, hashtable_create V loadlimit ok minsize (mkHeap [] 0) = MVal (t, h) ->
     exists x, t = Some x /\ minsize < Z.of_nat (List.length (ht_tab x)) /\ forall eqfn k, hashtable_search V hashfn eqfn k x = Val None) /\
  (2 ^ 30 < minsize -> forall h, hashtable_create V loadlimit ok minsize h = MVal (None, h)).
Proof. exact c94_size. Qed.
Print Assumptions C94_create.

(** The functions that the library itself uses are such functions, and such requests exist. *)
Example C94_functions : equivalence equal_keys /\ compatible hash_key equal_keys.
Proof. exact equal_keys_equivalence. Qed.
Example C94_never_twice : never_twice equal_keys sample_asks.
Proof. exact sample_never_twice. Qed.
Example C94_sample : exists t h, asked hash_key equal_keys real_limit yes 32 sample_asks = MVal (t, h) /\
  hashtable_search nat hash_key equal_keys (lit "a") t = Val (Some 3%nat) /\ hashtable_search nat hash_key equal_keys (lit "b") t = Val None /\
  hashtable_search nat hash_key equal_keys (lit "c") t = Val None /\ hashtable_count nat t = 1.
Proof. exact sample_asked. Qed.

(** 'A search finds the pair inserted last' is false: growing turns the chains around. *)
Theorem C94_last_inserted_refuted :
  found_after [Insert (lit "a") 100%nat; Insert (lit "a") 200%nat] (lit "a") = MVal (Some 200%nat) /\
  found_after (Insert (lit "a") 100%nat :: Insert (lit "a") 200%nat :: others 34) (lit "a") = MVal (Some 100%nat).
Proof. exact order_reversed. Qed.
Print Assumptions C94_last_inserted_refuted.

(** 'The table does not claim ownership of the values' (src/argtable3.c:168) is false: removing a pair frees its value. *)
Theorem C94_values_not_owned_refuted : exists t h vid t' h', asked hash_key equal_keys real_limit yes 32 [Insert (lit "a") 1%nat] = MVal (t, h) /\
  In vid (map (fun e => he_vid e) (List.concat (ht_tab t))) /\ In vid (h_live h) /\
  hashtable_remove nat hash_key equal_keys (lit "a") t h = MVal (t', h') /\ ~ In vid (h_live h').
Proof. exact value_taken. Qed.
Print Assumptions C94_values_not_owned_refuted.

(** Changing a value to itself frees it: the end of the table frees it again. *)
Theorem C94_same_value_refuted : exists t h t' h', asked hash_key equal_keys real_limit yes 32 [Insert (lit "a") 1%nat] = MVal (t, h) /\
  hashtable_change nat hash_key equal_keys (lit "a") 1%nat 2%nat t h = MVal (true, t', h') /\
  map (fun e => he_vid e) (List.concat (ht_tab t)) = [2%nat] /\ hashtable_destroy nat t' h' = MUB.
Proof. exact same_value. Qed.
Print Assumptions C94_same_value_refuted.
