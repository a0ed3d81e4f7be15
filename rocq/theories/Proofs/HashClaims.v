From Coq Require Import ZArith Bool List Ascii String Arith Lia Permutation.
From Verif.Base Require Import CInt CStr CMem.
From Verif.Model Require Import ArgMemory HashTable.
From Verif.Spec Require Import HashSpec.
From Verif.Proofs Require Import ArgMemoryProofs HashTableProofs HashAny.
Import ListNotations.
Open Scope list_scope.
Open Scope Z_scope.

Local Notation len := List.length.
Local Notation zlen l := (Z.of_nat (List.length l)).

Lemma done_length V eqfn qs : forall (b b' : list (str * V)), all_done eqfn qs b b' -> (len b' <= len b + len qs)%nat.
Proof.
  induction qs as [|q qs IH]; intros b b' D; inversion D as [? ? P|? ? ? b1 ? D1 D2]; subst.
  - rewrite (Permutation_length P). lia.
  - apply IH in D2. cbn [List.length]. enough (len b1 <= S (len b))%nat by lia. clear - D1.
    destruct D1 as [k v b b' P|k k' v b b' E P|k b b' L P|k v k' old r b b' E P P'|k v b b' L P];
      try (apply Permutation_length in P); try (apply Permutation_length in P'); cbn [List.length] in *; lia.
Qed.

Lemma asked_ok V hashfn eqfn loadlimit ok minsize (qs : list (ask V)) : compatible hashfn eqfn -> minsize <= 2 ^ 30 ->
  (asked hashfn eqfn loadlimit ok minsize qs = MPanic /\ exists n, ok n = false) \/
  (exists t h, asked hashfn eqfn loadlimit ok minsize qs = MVal (t, h) /\ tok V hashfn t /\ holds V t h [] /\
     all_done eqfn qs [] (map (kv V) (entries V t))).
Proof.
  intros C B. unfold asked. destruct (create_ok V loadlimit hashfn ok minsize B) as [(-> & F)|(t & h & -> & O & H & E & _)]; cbn [mbind]; [left; auto|].
  destruct (asks_ok V loadlimit hashfn eqfn C ok qs t h O H) as [X|(t' & h' & X & O' & H' & D)]; [left; exact X|right].
  rewrite E in D. exists t', h'. auto.
Qed.

Lemma c94_bag : forall V hashfn eqfn loadlimit ok minsize (qs : list (ask V)), compatible hashfn eqfn -> minsize <= 2 ^ 30 ->
  (asked hashfn eqfn loadlimit ok minsize qs = MPanic /\ exists n, ok n = false) \/
  (exists t h b, asked hashfn eqfn loadlimit ok minsize qs = MVal (t, h) /\ all_done eqfn qs [] b /\
     (forall k, exists r, hashtable_search V hashfn eqfn k t = Val r /\
        match r with
        | Some v => exists k', eqfn k k' = true /\ In (k', v) b
        | None => lacks eqfn b k
        end) /\
     hashtable_count V t = cast_u32 (zlen b) /\
     (zlen qs < 4294967296 -> exists l, Permutation l b /\ forall fuel, (len b <= fuel)%nat -> visited fuel t = Some (Val l)) /\
     exists h', hashtable_destroy V t h = MVal h' /\ h_live h' = []).
Proof.
  intros V hashfn eqfn loadlimit ok minsize qs C B. destruct (asked_ok V hashfn eqfn loadlimit ok minsize qs C B) as [X|(t & h & E & O & H & D)]; [left; exact X|right].
  exists t, h, (map (kv V) (entries V t)). split; [exact E|]. split; [exact D|]. split; [intros k; exact (any_search V hashfn eqfn C t k O)|].
  split; [unfold hashtable_count; rewrite (tok_count V hashfn t O), map_length; reflexivity|]. split.
  - intros L. exists (map (kv V) (entries V t)). split; [reflexivity|]. intros fuel Fu. rewrite map_length in Fu. apply done_length in D. rewrite map_length in D. cbn [List.length] in D.
    apply (visited_ok V hashfn); [exact O| |exact Fu]. unfold U32_MOD. lia.
  - destruct (destroy_ok V t h [] H) as (h' & -> & _ & Pm). exists h'. split; [reflexivity|]. apply Permutation_sym, Permutation_nil in Pm. exact Pm.
Qed.

Lemma c94_map : forall V hashfn eqfn loadlimit ok minsize (qs : list (ask V)) t h,
  compatible hashfn eqfn -> equivalence eqfn -> minsize <= 2 ^ 30 -> never_twice eqfn qs ->
  asked hashfn eqfn loadlimit ok minsize qs = MVal (t, h) -> forall k, hashtable_search V hashfn eqfn k t = Val (value_of eqfn qs k).
Proof.
  intros V hashfn eqfn loadlimit ok minsize qs t h C Q B N A k.
  destruct (asked_ok V hashfn eqfn loadlimit ok minsize qs C B) as [(X & _)|(t' & h' & E & O & H & D)]; [congruence|].
  assert (t' = t) as -> by congruence.
  pose proof (all_says V eqfn Q qs [] _ (fun _ => None) D (says_nil V eqfn) N) as S. pose proof (proj1 S k) as Sk. cbv beta in Sk. fold (value_of eqfn qs k) in Sk.
  destruct (any_search V hashfn eqfn C t k O) as (r & -> & R). f_equal. destruct r as [v|], (value_of eqfn qs k) as [w|].
  - destruct R as (k1 & E1 & J1), Sk as (k2 & E2 & J2). f_equal. apply in_split in J1. destruct J1 as (b1 & b2 & Eb). pose proof (proj2 S b1 k1 v b2 Eb) as L.
    rewrite Eb in J2. apply in_app_iff in J2. destruct J2 as [J2|[J2|J2]]; [|congruence|].
    + exfalso. assert (eqfn k1 k2 = true) as X by (rewrite <- (eq_left eqfn Q k k1 k2 E1); exact E2). rewrite (L k2 w) in X; [discriminate|]. apply in_app_iff. left. exact J2.
    + exfalso. assert (eqfn k1 k2 = true) as X by (rewrite <- (eq_left eqfn Q k k1 k2 E1); exact E2). rewrite (L k2 w) in X; [discriminate|]. apply in_app_iff. right. exact J2.
  - exfalso. destruct R as (k1 & E1 & J1). rewrite (Sk k1 v J1) in E1. discriminate.
  - exfalso. destruct Sk as (k2 & E2 & J2). rewrite (R k2 w J2) in E2. discriminate.
  - reflexivity.
Qed.

Lemma c94_size : forall V hashfn (loadlimit : Z -> Z) ok minsize,
  (minsize <= 2 ^ 30 -> forall t h, hashtable_create V loadlimit ok minsize (mkHeap [] 0) = MVal (t, h) ->
     exists x, t = Some x /\ minsize < zlen (ht_tab x) /\ forall eqfn k, hashtable_search V hashfn eqfn k x = Val None) /\
  (2 ^ 30 < minsize -> forall h, hashtable_create V loadlimit ok minsize h = MVal (None, h)).
Proof.
  intros V hashfn loadlimit ok minsize. split.
  - intros B t h E. destruct (create_ok V loadlimit hashfn ok minsize B) as [(X & _)|(x & h' & X & O & _ & En & L)]; [congruence|].
    assert (t = Some x) as -> by congruence. exists x. split; [reflexivity|]. split; [exact L|]. intros eqfn k. unfold hashtable_search, chain_of, size_of.
    destruct (index_ok V (ht_tab x) (enhanced_hash hashfn k) (tok_size V hashfn x O)) as (i & -> & _ & Li). cbn [cbind].
    destruct (nth_error (ht_tab x) i) as [c|] eqn:Nc; [|apply nth_error_None in Nc; lia]. cbn [cbind].
    assert (c = []) as ->; [|reflexivity]. destruct c as [|e c]; [reflexivity|]. exfalso. assert (In e (entries V x)) as J; [|rewrite En in J; exact J].
    apply in_concat. exists (e :: c). split; [exact (nth_error_In _ _ Nc)|left; reflexivity].
  - intros L h. unfold hashtable_create. rewrite (proj2 (Z.ltb_lt _ _) L). reflexivity.
Qed.

(** *** Samples *)
(** [ceil(size * 0.65)]; what the float 0.65 adds is below one unit for the sizes here. *)
Definition real_limit (size : Z) : Z := (size * 13 + 19) / 20.
(** As many names as wanted. *)
Fixpoint others (n : nat) : list (ask nat) :=
  match n with O => [] | S n => Insert (lit "x" ++ repeat "y"%char n) n :: others n end.
Definition yes (n : nat) : bool := true.
Definition sample_asks : list (ask nat) :=
  [Insert (lit "a") 1%nat; Insert (lit "b") 2%nat; Change (lit "a") 3%nat; Remove (lit "b"); Change (lit "c") 4%nat].

Lemma equal_keys_equivalence : equivalence equal_keys /\ compatible hash_key equal_keys.
Proof.
  assert (forall a b, equal_keys a b = true -> a = b) as E by (intros a b H; apply equal_keys_eq, H).
  split; [split; [intros a; apply equal_keys_eq; reflexivity|split]|].
  - intros a b H. apply E in H. subst b. apply equal_keys_eq. reflexivity.
  - intros a b c H1 H2. apply E in H1, H2. subst. apply equal_keys_eq. reflexivity.
  - intros a b H. apply E in H. subst b. reflexivity.
Qed.
Lemma sample_never_twice : never_twice equal_keys sample_asks.
Proof.
  intros before k v after E. unfold sample_asks in E.
  do 5 (destruct before as [|? before]; cbn [app] in E; [injection E; intros; subst; (reflexivity || discriminate)|injection E as <- E]; try discriminate).
  all: destruct before; discriminate.
Qed.
Lemma sample_asked : exists t h, asked hash_key equal_keys real_limit yes 32 sample_asks = MVal (t, h) /\
  hashtable_search nat hash_key equal_keys (lit "a") t = Val (Some 3%nat) /\ hashtable_search nat hash_key equal_keys (lit "b") t = Val None /\
  hashtable_search nat hash_key equal_keys (lit "c") t = Val None /\ hashtable_count nat t = 1.
Proof.
  destruct (asked hash_key equal_keys real_limit yes 32 sample_asks) as [(t, h)| |] eqn:E; vm_compute in E; [|discriminate E|discriminate E].
  exists t, h. split; [reflexivity|]. injection E as <- <-. vm_compute. auto.
Qed.

Definition found_after (qs : list (ask nat)) (k : str) : mres (option nat) :=
  mbind (asked hash_key equal_keys real_limit yes 32 qs) (fun '(t, _) => lift (hashtable_search nat hash_key equal_keys k t)).
Lemma order_reversed :
  found_after [Insert (lit "a") 100%nat; Insert (lit "a") 200%nat] (lit "a") = MVal (Some 200%nat) /\
  found_after (Insert (lit "a") 100%nat :: Insert (lit "a") 200%nat :: others 34) (lit "a") = MVal (Some 100%nat).
Proof. split; vm_compute; reflexivity. Qed.

Lemma value_taken : exists t h vid t' h', asked hash_key equal_keys real_limit yes 32 [Insert (lit "a") 1%nat] = MVal (t, h) /\
  In vid (map (fun e => he_vid e) (List.concat (ht_tab t))) /\ In vid (h_live h) /\
  hashtable_remove nat hash_key equal_keys (lit "a") t h = MVal (t', h') /\ ~ In vid (h_live h').
Proof.
  destruct (asked hash_key equal_keys real_limit yes 32 [Insert (lit "a") 1%nat]) as [(t, h)| |] eqn:E; vm_compute in E; [|discriminate E|discriminate E].
  injection E as <- <-. eexists _, _, 2%nat, _, _. split; [reflexivity|]. split; [vm_compute; auto|]. split; [vm_compute; auto|]. split; [vm_compute; reflexivity|].
  vm_compute. intros [X|[X|[]]]; discriminate X.
Qed.
Lemma same_value : exists t h t' h', asked hash_key equal_keys real_limit yes 32 [Insert (lit "a") 1%nat] = MVal (t, h) /\
  hashtable_change nat hash_key equal_keys (lit "a") 1%nat 2%nat t h = MVal (true, t', h') /\
  map (fun e => he_vid e) (List.concat (ht_tab t)) = [2%nat] /\ hashtable_destroy nat t' h' = MUB.
Proof.
  destruct (asked hash_key equal_keys real_limit yes 32 [Insert (lit "a") 1%nat]) as [(t, h)| |] eqn:E; vm_compute in E; [|discriminate E|discriminate E].
  injection E as <- <-. eexists _, _, _, _. split; [reflexivity|]. split; [vm_compute; reflexivity|]. split; vm_compute; reflexivity.
Qed.
