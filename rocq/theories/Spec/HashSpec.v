(** What the hash table of the library is for any caller: a collection of pairs, without hashing, chains or growth. *)
From Coq Require Import ZArith Bool List Ascii Permutation.
From Verif.Base Require Import CInt CStr CMem.
From Verif.Model Require Import ArgMemory HashTable.
Import ListNotations.
Open Scope list_scope.

(** What a caller asks for. *)
Inductive ask (V : Type) : Type :=
| Insert (k : str) (v : V)
| Remove (k : str)
| Change (k : str) (v : V).
Arguments Insert {V}. Arguments Remove {V}. Arguments Change {V}.

Section Spec.
Variable V : Type.
(** The caller's functions. *)
Variable hashfn : str -> Z.
Variable eqfn : str -> str -> bool.

(** Keys that are equal for the caller have the same hash value. *)
Definition compatible : Prop := forall a b, eqfn a b = true -> hashfn a = hashfn b.
Definition equivalence : Prop :=
  (forall a, eqfn a a = true) /\ (forall a b, eqfn a b = true -> eqfn b a = true) /\
  (forall a b c, eqfn a b = true -> eqfn b c = true -> eqfn a c = true).

(** No pair of [b] has the key [k]. *)
Definition lacks (b : list (str * V)) (k : str) : Prop := forall k' v, In (k', v) b -> eqfn k k' = false.

(** One request turns the collection [b] into [b'].  When several pairs have the key, one of them is meant. *)
Inductive does : ask V -> list (str * V) -> list (str * V) -> Prop :=
| does_insert k v b b' : Permutation b' ((k, v) :: b) -> does (Insert k v) b b'
| does_remove k k' v b b' : eqfn k k' = true -> Permutation b ((k', v) :: b') -> does (Remove k) b b'
| does_nothing k b b' : lacks b k -> Permutation b b' -> does (Remove k) b b'
| does_change k v k' old r b b' : eqfn k k' = true -> Permutation b ((k', old) :: r) -> Permutation b' ((k', v) :: r) -> does (Change k v) b b'
| does_not_change k v b b' : lacks b k -> Permutation b b' -> does (Change k v) b b'.
Inductive all_done : list (ask V) -> list (str * V) -> list (str * V) -> Prop :=
| done_nil b b' : Permutation b b' -> all_done [] b b'
| done_cons q qs b b1 b2 : does q b b1 -> all_done qs b1 b2 -> all_done (q :: qs) b b2.

(** The same when a key is never inserted while it is there: the last request about a key decides. *)
Definition follow (q : ask V) (now : option V) (k : str) : option V :=
  match q with
  | Insert k' v => if eqfn k' k then Some v else now
  | Remove k' => if eqfn k' k then None else now
  | Change k' v => if eqfn k' k then match now with Some _ => Some v | None => None end else now
  end.
Definition value_of (qs : list (ask V)) (k : str) : option V := fold_left (fun now q => follow q now k) qs None.
Definition never_twice (qs : list (ask V)) : Prop :=
  forall before k v after, qs = before ++ Insert k v :: after -> value_of before k = None.

(** A caller: memory for each key and each value is allocated before it is handed over; a value that was not taken is freed. *)
Variable loadlimit : Z -> Z.
Variable ok : nat -> bool.
Fixpoint asks (qs : list (ask V)) (t : htab V) (h : heap) : mres (htab V * heap) :=
  match qs with
  | [] => MVal (t, h)
  | Insert k v :: qs =>
      mbind (xmalloc ok h) (fun '(vid, h) => mbind (xmalloc ok h) (fun '(kid, h) =>
      mbind (hashtable_insert V loadlimit hashfn ok k kid v vid t h) (fun '(t, h) => asks qs t h)))
  | Remove k :: qs => mbind (hashtable_remove V hashfn eqfn k t h) (fun '(t, h) => asks qs t h)
  | Change k v :: qs =>
      mbind (xmalloc ok h) (fun '(vid, h) =>
      mbind (hashtable_change V hashfn eqfn k v vid t h) (fun '(taken, t, h) =>
      if taken then asks qs t h else mbind (xfree vid h) (fun h => asks qs t h)))
  end.
(** After arg_hashtable_create with [minsize]; a NULL table would be used. *)
Definition asked (minsize : Z) (qs : list (ask V)) : mres (htab V * heap) :=
  mbind (hashtable_create V loadlimit ok minsize (mkHeap [] 0)) (fun '(t, h) =>
  match t with Some t => asks qs t h | None => MUB end).
End Spec.
Arguments lacks {V}. Arguments does {V}. Arguments all_done {V}. Arguments follow {V}. Arguments value_of {V}. Arguments never_twice {V}.
Arguments asks {V}. Arguments asked {V}.

(** A walk over the whole table with an iterator: the pairs, in the order in which they are met. *)
Fixpoint visit {V} (fuel : nat) (t : htab V) (i : hitr) : option (cres (list (str * V))) :=
  match fuel with
  | O => None
  | S fuel =>
      match cbind (itr_key V t i) (fun k => cbind (itr_value V t i) (fun v => Val (k, v))) with
      | UB => Some UB
      | Val kv =>
          match itr_advance V t i with
          | UB => Some UB
          | Val (false, _) => Some (Val [kv])
          | Val (true, i) => option_map (fun r => cbind r (fun l => Val (kv :: l))) (visit fuel t i)
          end
      end
  end.
Definition visited {V} (fuel : nat) (t : htab V) : option (cres (list (str * V))) :=
  if (hashtable_count V t =? 0)%Z then Some (Val []) else visit fuel t (itr_create V t).
