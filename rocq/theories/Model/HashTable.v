(** src/argtable3.c:454-875 and 4690-4868: the hash table and the registry of
    commands in it.  A chain is the list of its entries.  Each entry owns three
    blocks: itself, its key and its value; the table owns two. *)
From Coq Require Import ZArith Bool List Ascii Arith.
From Verif.Base Require Import CInt CStr CMem.
From Verif.Model Require Import ArgMemory.
Import ListNotations.
Open Scope list_scope.
Open Scope Z_scope.

Section Table.
Variable V : Type.
(** [(unsigned int)ceil(size * (double)max_load_factor)] for a size. *)
Variable loadlimit : Z -> Z.
(** [hashfn] and [eqfn]. *)
Variable hashfn : str -> Z.
Variable eqfn : str -> str -> bool.

(** struct arg_hashtable_entry (lines 130-134), with the blocks. *)
Record hent : Type := mkHent { he_id : nat; he_h : Z; he_k : str; he_kid : nat; he_v : V; he_vid : nat }.
(** struct arg_hashtable (lines 136-144); tablelength is the length of [ht_tab]. *)
Record htab : Type := mkHtab { ht_id : nat; ht_tid : nat; ht_tab : list (list hent); ht_count : Z; ht_limit : Z; ht_prime : nat }.

(** Lines 535-537. *)
Definition primes : list Z :=
  [53; 97; 193; 389; 769; 1543; 3079; 6151; 12289;
   24593; 49157; 98317; 196613; 393241; 786433; 1572869; 3145739; 6291469;
   12582917; 25165843; 50331653; 100663319; 201326611; 402653189; 805306457; 1610612741].

(** Lines 541-552. *)
Definition enhanced_hash (k : str) : Z :=
  let i := hashfn k in
  let i := cast_u32 (i + Z.lnot (Z.shiftl i 9)) in
  let i := Z.lxor i (Z.lor (Z.shiftr i 14) (cast_u32 (Z.shiftl i 18))) in
  let i := cast_u32 (i + Z.shiftl i 4) in
  Z.lxor i (Z.lor (Z.shiftr i 10) (cast_u32 (Z.shiftl i 22))).
(** Lines 554-556; division by 0 is undefined. *)
Definition index_for (tablelength hashvalue : Z) : cres nat :=
  if tablelength =? 0 then UB else Val (Z.to_nat (hashvalue mod tablelength)).

(** Lines 571-577: the first prime above [minsize], else the first prime with an index past the end. *)
Fixpoint find_prime (l : list Z) (i : nat) (minsize : Z) : Z * nat :=
  match l with
  | [] => (53, i)
  | p :: l => if minsize <? p then (p, i) else find_prime l (S i) minsize
  end.
(** Lines 558-589; [None]: NULL. *)
Definition hashtable_create (ok : nat -> bool) (minsize : Z) (h : heap) : mres (option htab * heap) :=
  if 2 ^ 30 <? minsize then MVal (None, h)
  else
    let '(size, pindex) := find_prime primes 0 minsize in
    mbind (xmalloc ok h) (fun '(id, h) =>
    mbind (xmalloc ok h) (fun '(tid, h) =>
    MVal (Some (mkHtab id tid (repeat [] (Z.to_nat size)) 0 (loadlimit size) pindex), h))).

(** [e->next = table[index]; table[index] = e] *)
Definition chain_in (e : hent) (index : nat) (tab : list (list hent)) : cres (list (list hent)) :=
  match nth_error tab index with
  | None => UB
  | Some c => put tab index (e :: c)
  end.
(** Lines 611-615, for one chain. *)
Fixpoint move_chain (c : list hent) (newsize : Z) (newtab : list (list hent)) : cres (list (list hent)) :=
  match c with
  | [] => Val newtab
  | e :: c => cbind (index_for newsize (he_h e)) (fun index => cbind (chain_in e index newtab) (move_chain c newsize))
  end.
(** Lines 610-617. *)
Fixpoint move_all (tab : list (list hent)) (newsize : Z) (newtab : list (list hent)) : cres (list (list hent)) :=
  match tab with
  | [] => Val newtab
  | c :: tab => cbind (move_chain c newsize newtab) (move_all tab newsize)
  end.
(** Lines 591-624. *)
Definition hashtable_expand (ok : nat -> bool) (t : htab) (h : heap) : mres (htab * heap) :=
  if Nat.eqb (ht_prime t) (List.length primes - 1) then MVal (t, h)
  else
    match nth_error primes (S (ht_prime t)) with
    | None => MUB
    | Some newsize =>
        mbind (xmalloc ok h) (fun '(tid, h) =>
        mbind (lift (move_all (ht_tab t) newsize (repeat [] (Z.to_nat newsize)))) (fun tab =>
        mbind (xfree (ht_tid t) h) (fun h =>
        MVal (mkHtab (ht_id t) tid tab (ht_count t) (loadlimit newsize) (S (ht_prime t)), h))))
    end.

Definition size_of (t : htab) : Z := Z.of_nat (List.length (ht_tab t)).
Definition set_tab (t : htab) (tab : list (list hent)) (count : Z) : htab :=
  mkHtab (ht_id t) (ht_tid t) tab count (ht_limit t) (ht_prime t).

(** Lines 626-628. *)
Definition hashtable_count (t : htab) : Z := ht_count t.

(** Lines 630-651; the key and the value with their blocks. *)
Definition hashtable_insert (ok : nat -> bool) (k : str) (kid : nat) (v : V) (vid : nat) (t : htab) (h : heap) : mres (htab * heap) :=
  mbind (if ht_limit t <? cast_u32 (ht_count t + 1) then hashtable_expand ok t h else MVal (t, h)) (fun '(t, h) =>
  mbind (xmalloc ok h) (fun '(id, h) =>
  let e := mkHent id (enhanced_hash k) k kid v vid in
  mbind (lift (cbind (index_for (size_of t) (he_h e)) (fun index => chain_in e index (ht_tab t)))) (fun tab =>
  MVal (set_tab t tab (cast_u32 (ht_count t + 1)), h)))).

(** The condition of lines 663, 687, 845 and 868. *)
Definition matches (hashvalue : Z) (k : str) (e : hent) : bool := (hashvalue =? he_h e) && eqfn k (he_k e).
Definition chain_of (t : htab) (k : str) : cres (nat * list hent) :=
  cbind (index_for (size_of t) (enhanced_hash k)) (fun index =>
  match nth_error (ht_tab t) index with Some c => Val (index, c) | None => UB end).
(** Lines 653-668. *)
Definition hashtable_search (k : str) (t : htab) : cres (option V) :=
  cbind (chain_of t k) (fun '(_, c) => Val (option_map he_v (find (matches (enhanced_hash k) k) c))).

(** Lines 682-697: the entry that is taken out of the chain, and the chain without it. *)
Fixpoint unchain (p : hent -> bool) (c : list hent) : option (hent * list hent) :=
  match c with
  | [] => None
  | e :: c => if p e then Some (e, c) else option_map (fun '(x, c) => (x, e :: c)) (unchain p c)
  end.
(** Lines 690-692: the blocks of an entry. *)
Definition free_entry (e : hent) (h : heap) : mres heap :=
  mbind (xfree (he_kid e) h) (fun h => mbind (xfree (he_vid e) h) (fun h => xfree (he_id e) h)).
(** Lines 670-698. *)
Definition hashtable_remove (k : str) (t : htab) (h : heap) : mres (htab * heap) :=
  mbind (lift (chain_of t k)) (fun '(index, c) =>
  match unchain (matches (enhanced_hash k) k) c with
  | None => MVal (t, h)
  | Some (e, c) =>
      mbind (lift (put (ht_tab t) index c)) (fun tab =>
      mbind (free_entry e h) (fun h => MVal (set_tab t tab (cast_u32 (ht_count t - 1)), h)))
  end).

Fixpoint free_chain (c : list hent) (h : heap) : mres heap :=
  match c with [] => MVal h | e :: c => mbind (free_entry e h) (free_chain c) end.
Fixpoint free_chains (tab : list (list hent)) (h : heap) : mres heap :=
  match tab with [] => MVal h | c :: tab => mbind (free_chain c h) (free_chains tab) end.
(** Lines 700-728, with free_values. *)
Definition hashtable_destroy (t : htab) (h : heap) : mres heap :=
  mbind (free_chains (ht_tab t) h) (fun h => mbind (xfree (ht_tid t) h) (fun h => xfree (ht_id t) h)).

(** struct arg_hashtable_itr (lines 229-234): [it_pos] is the place of [e] in its
    chain, [None] for NULL; [parent] is the entry before it. *)
Record hitr : Type := mkHitr { it_index : nat; it_pos : option nat }.
(** Lines 742-748 and 789-798: the first chain from [i] on that is not empty. *)
Fixpoint first_chain (i : nat) (tab : list (list hent)) : option nat :=
  match tab with
  | [] => None
  | [] :: tab => first_chain (S i) tab
  | _ :: _ => Some i
  end.
(** Lines 730-751, but for the memory of the iterator. *)
Definition itr_create (t : htab) : hitr :=
  if ht_count t =? 0 then mkHitr (List.length (ht_tab t)) None
  else match first_chain 0 (ht_tab t) with
       | Some i => mkHitr i (Some 0%nat)
       | None => mkHitr (List.length (ht_tab t)) None
       end.
Definition itr_entry (t : htab) (i : hitr) : cres hent :=
  match it_pos i with
  | None => UB
  | Some p => match nth_error (ht_tab t) (it_index i) with
              | None => UB
              | Some c => match nth_error c p with Some e => Val e | None => UB end
              end
  end.
(** Lines 757-763. *)
Definition itr_key (t : htab) (i : hitr) : cres str := cbind (itr_entry t i) (fun e => Val (he_k e)).
Definition itr_value (t : htab) (i : hitr) : cres V := cbind (itr_entry t i) (fun e => Val (he_v e)).
(** Lines 777-799: the first entry of the next chain that is not empty. *)
Definition itr_next_chain (t : htab) (index : nat) : bool * hitr :=
  match first_chain (S index) (skipn (S index) (ht_tab t)) with
  | Some j => (true, mkHitr j (Some 0%nat))
  | None => (false, mkHitr (Nat.max (S index) (List.length (ht_tab t))) None)
  end.
(** Lines 765-800; whether there is an entry. *)
Definition itr_advance (t : htab) (i : hitr) : cres (bool * hitr) :=
  match it_pos i with
  | None => Val (false, i)
  | Some p =>
      match nth_error (ht_tab t) (it_index i) with
      | None => UB
      | Some c =>
          match nth_error c p with
          | None => UB
          | Some _ =>
              match nth_error c (S p) with
              | Some _ => Val (true, mkHitr (it_index i) (Some (S p)))
              | None => Val (itr_next_chain t (it_index i))
              end
          end
      end
  end.
(** Lines 802-829.  The entry is out of its chain before the iterator advances from it, so that
    the next entry of the chain has its place now. *)
Definition itr_remove (t : htab) (i : hitr) (h : heap) : mres (bool * hitr * htab * heap) :=
  match it_pos i with
  | None => MUB
  | Some p =>
      match nth_error (ht_tab t) (it_index i) with
      | None => MUB
      | Some c =>
          match nth_error c p with
          | None => MUB
          | Some e =>
              let c' := firstn p c ++ skipn (S p) c in
              mbind (lift (put (ht_tab t) (it_index i) c')) (fun tab =>
              let t := set_tab t tab (cast_u32 (ht_count t - 1)) in
              let '(more, i) := match nth_error c' p with
                                | Some _ => (true, mkHitr (it_index i) (Some p))
                                | None => itr_next_chain t (it_index i)
                                end in
              mbind (free_entry e h) (fun h => MVal (more, i, t, h)))
          end
      end
  end.

(** Lines 840-854: the place in the chain. *)
Fixpoint place (p : hent -> bool) (i : nat) (c : list hent) : option nat :=
  match c with [] => None | e :: c => if p e then Some i else place p (S i) c end.
(** Lines 831-855; [None]: not found, the iterator is unchanged. *)
Definition itr_search (k : str) (t : htab) : cres (option hitr) :=
  cbind (chain_of t k) (fun '(index, c) =>
  Val (option_map (fun p => mkHitr index (Some p)) (place (matches (enhanced_hash k) k) 0 c))).

(** Lines 857-875: the new value with its block; whether the key was found. *)
Fixpoint change_in (p : hent -> bool) (v : V) (vid : nat) (c : list hent) : option (nat * list hent) :=
  match c with
  | [] => None
  | e :: c =>
      if p e then Some (he_vid e, mkHent (he_id e) (he_h e) (he_k e) (he_kid e) v vid :: c)
      else option_map (fun '(x, c) => (x, e :: c)) (change_in p v vid c)
  end.
Definition hashtable_change (k : str) (v : V) (vid : nat) (t : htab) (h : heap) : mres (bool * htab * heap) :=
  mbind (lift (chain_of t k)) (fun '(index, c) =>
  match change_in (matches (enhanced_hash k) k) v vid c with
  | None => MVal (false, t, h)
  | Some (old, c) =>
      mbind (lift (put (ht_tab t) index c)) (fun tab =>
      mbind (xfree old h) (fun h => MVal (true, set_tab t tab (ht_count t), h)))
  end).
End Table.
Arguments mkHent {V}. Arguments he_id {V}. Arguments he_h {V}. Arguments he_k {V}. Arguments he_kid {V}. Arguments he_v {V}. Arguments he_vid {V}.
Arguments mkHtab {V}. Arguments ht_id {V}. Arguments ht_tid {V}. Arguments ht_tab {V}. Arguments ht_count {V}. Arguments ht_limit {V}. Arguments ht_prime {V}.

(** ** Commands *)

(** struct arg_cmd_info (src/argtable3.h:168-172). *)
Record info (P : Type) : Type := mkInfo { ci_name : block; ci_description : block; ci_proc : P }.
Arguments mkInfo {P}. Arguments ci_name {P}. Arguments ci_description {P}. Arguments ci_proc {P}.
Definition NAME_LEN : nat := 100.
Definition DESCRIPTION_LEN : nat := 256.

(** Lines 4757-4766: [c] is a char, which is signed. *)
Definition signed_char (c : ascii) : Z := let n := Z.of_N (N_of_ascii c) in if n <? 128 then n else n - 256.
Definition hash_key (key : str) : Z :=
  fold_left (fun hash c => cast_u32 (cast_u32 (Z.shiftl hash 5) + hash + cast_u32 (signed_char c))) key 5381.
(** Lines 4768-4772. *)
Definition equal_keys (key1 key2 : str) : bool := str_eqb key1 key2.

Section Commands.
Variable P : Type.
Variable loadlimit : Z -> Z.
(** [s_hashtable], NULL at first. *)
Definition registry : Type := option (htab (info P)).

(** Lines 4774-4780. *)
Definition cmd_init (ok : nat -> bool) (h : heap) : mres (registry * heap) := hashtable_create (info P) loadlimit ok 32 h.
Definition cmd_uninit (r : registry) (h : heap) : mres heap :=
  match r with None => MUB | Some t => hashtable_destroy (info P) t h end.

(** Lines 4838-4844. *)
Definition cmd_info (name : str) (r : registry) : cres (option (info P)) :=
  match r with None => UB | Some t => hashtable_search (info P) hash_key equal_keys name t end.
Definition cmd_count (r : registry) : cres Z := match r with None => UB | Some t => Val (hashtable_count (info P) t) end.
(** Lines 4825-4827. *)
Definition cmd_unregister (name : str) (r : registry) (h : heap) : mres (registry * heap) :=
  match r with None => MUB | Some t => mbind (hashtable_remove (info P) hash_key equal_keys name t h) (fun '(t, h) => MVal (Some t, h)) end.

(** Lines 4782-4823.  An assertion that fails ends the process like a malloc that fails. *)
Definition cmd_register (ok : nat -> bool) (name : str) (proc : P) (description : str) (r : registry) (h : heap) : mres (registry * heap) :=
  if negb ((List.length name <? NAME_LEN)%nat && (List.length description <? DESCRIPTION_LEN)%nat) then MPanic
  else
    mbind (lift (cmd_info name r)) (fun old =>
    mbind (match old with Some _ => cmd_unregister name r h | None => MVal (r, h) end) (fun '(r, h) =>
    mbind (xmalloc ok h) (fun '(vid, h) =>
    mbind (lift (store (zeroed NAME_LEN) 0 (bytes name))) (fun n =>
    mbind (lift (store (zeroed DESCRIPTION_LEN) 0 (bytes description))) (fun d =>
    mbind (xmalloc ok h) (fun '(kid, h) =>
    mbind (lift (store (zeroed (List.length name + 1)) 0 (bytes name))) (fun k =>
    mbind (lift (cstr k)) (fun key =>
    match r with
    | None => MUB
    | Some t => mbind (hashtable_insert (info P) loadlimit hash_key ok key kid (mkInfo n d proc) vid t h) (fun '(t, h) => MVal (Some t, h))
    end)))))))).

(** Lines 4829-4836; the assertions fail when there is no such command. *)
Definition cmd_dispatch (name : str) (r : registry) : mres P :=
  mbind (lift (cmd_info name r)) (fun i => match i with Some i => MVal (ci_proc i) | None => MPanic end).

(** Lines 4846-4868: a loop over all commands as a caller writes it (iterator, then [do ... while (advance)] when there is a command):
    the keys and values in the order in which they are met. *)
Fixpoint walk (fuel : nat) (t : htab (info P)) (i : hitr) : option (cres (list (str * info P))) :=
  match fuel with
  | O => None
  | S fuel =>
      match cbind (itr_key (info P) t i) (fun k => cbind (itr_value (info P) t i) (fun v => Val (k, v))) with
      | UB => Some UB
      | Val kv =>
          match itr_advance (info P) t i with
          | UB => Some UB
          | Val (false, _) => Some (Val [kv])
          | Val (true, i) => option_map (fun r => cbind r (fun l => Val (kv :: l))) (walk fuel t i)
          end
      end
  end.
Definition cmd_list (fuel : nat) (r : registry) : option (cres (list (str * info P))) :=
  match r with
  | None => Some UB
  | Some t => if hashtable_count (info P) t =? 0 then Some (Val []) else walk fuel t (itr_create (info P) t)
  end.
End Commands.
