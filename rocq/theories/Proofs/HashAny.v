(** The hash table for any caller. *)
From Coq Require Import ZArith Bool List Ascii Arith Lia Permutation.
From Verif.Base Require Import CInt CStr CMem.
From Verif.Model Require Import ArgMemory HashTable.
From Verif.Spec Require Import HashSpec.
From Verif.Proofs Require Import ArgMemoryProofs HashTableProofs.
Import ListNotations.
Open Scope list_scope.
Open Scope Z_scope.

Local Notation len := List.length.
Local Notation zlen l := (Z.of_nat (List.length l)).

Section T.
Variable V : Type.
Variable loadlimit : Z -> Z.
Variable hashfn : str -> Z.
Variable eqfn : str -> str -> bool.
Hypothesis compat : compatible hashfn eqfn.

Local Notation hent := (hent V).
Local Notation htab := (htab V).
Local Notation eh := (enhanced_hash hashfn).
Local Notation entries := (entries V).
Local Notation kv := (kv V).
Local Notation placed := (placed V hashfn).
Local Notation eids := (eids V).
Local Notation owned := (owned V).
Local Notation holds := (holds V).

(** As [table_ok], but keys may occur more than once. *)
Record tok (t : htab) : Prop := mkTok {
  tok_size : (0 < len (ht_tab t))%nat;
  tok_placed : placed (ht_tab t);
  tok_count : ht_count t = cast_u32 (zlen (entries t));
  tok_prime : (ht_prime t < len primes)%nat
}.

Lemma eh_eq a b : eqfn a b = true -> eh a = eh b.
Proof. intros E. unfold enhanced_hash. rewrite (compat a b E). reflexivity. Qed.

Lemma tok_hash t e : tok t -> In e (entries t) -> he_h e = eh (he_k e).
Proof.
  intros O J. apply in_concat in J. destruct J as (c & Jc & J). apply In_nth_error in Jc. destruct Jc as (i & Ni). exact (proj1 (tok_placed t O i c e Ni J)).
Qed.

Lemma any_expand ok t h rest : tok t -> holds t h rest ->
  (hashtable_expand V loadlimit ok t h = MPanic /\ exists n, ok n = false) \/
  (exists t' h', hashtable_expand V loadlimit ok t h = MVal (t', h') /\ tok t' /\ Permutation (entries t') (entries t) /\ holds t' h' rest).
Proof.
  intros O (G & Ow). unfold hashtable_expand. destruct (Nat.eqb (ht_prime t) (len primes - 1)) eqn:E.
  - right. exists t, h. split; [reflexivity|]. split; [exact O|]. split; [reflexivity|split; assumption].
  - apply Nat.eqb_neq in E. pose proof (tok_prime t O) as Op. destruct (nth_error primes (S (ht_prime t))) as [size|] eqn:Np; [|apply nth_error_None in Np; lia].
    pose proof (primes_pos size (nth_error_In _ _ Np)) as Sz.
    destruct (xmalloc_cases ok h G) as [(-> & Fa)|(-> & G1)]; cbn [mbind]; [left; split; [reflexivity|exists (h_calls h); exact Fa]|right].
    destruct (move_all_ok V hashfn (ht_tab t) size (repeat [] (Z.to_nat size)) (empty_placed _ _ _) ltac:(rewrite repeat_length; lia) ltac:(rewrite repeat_length; lia)
      (fun e => tok_hash t e O)) as (tab & -> & Pl & L & P). cbn [lift mbind]. rewrite concat_empty, app_nil_r in P. rewrite repeat_length in L.
    destruct (xfree_perm (ht_tid t) (h_calls h :: ht_id t :: flat_map eids (entries t) ++ rest) _ G1) as (h2 & -> & G2 & P2 & _).
    { cbn [h_live]. rewrite Ow. unfold HashTableProofs.owned. cbn [app]. symmetry. exact (Permutation_middle [h_calls h; ht_id t] _ (ht_tid t)). }
    cbn [mbind]. eexists _, _. split; [reflexivity|]. split; [|split; [exact P|split; [exact G2|]]].
    + constructor; cbn [ht_tab ht_count ht_prime].
      * lia.
      * exact Pl.
      * unfold HashTableProofs.entries. cbn [ht_tab]. rewrite (Permutation_length P). exact (tok_count t O).
      * lia.
    + rewrite P2. unfold HashTableProofs.owned, HashTableProofs.entries. cbn [ht_id ht_tid ht_tab app]. rewrite (perm_swap (ht_id t)). do 2 constructor.
      apply Permutation_app_tail, flat_perm. symmetry. exact P.
Qed.

Lemma any_insert ok k kid v vid t h rest : tok t -> good h -> Permutation (h_live h) (kid :: vid :: owned t ++ rest) ->
  (hashtable_insert V loadlimit hashfn ok k kid v vid t h = MPanic /\ exists n, ok n = false) \/
  (exists t' h', hashtable_insert V loadlimit hashfn ok k kid v vid t h = MVal (t', h') /\ tok t' /\
     Permutation (map kv (entries t')) ((k, v) :: map kv (entries t)) /\ holds t' h' rest).
Proof.
  intros O G Ow. unfold hashtable_insert.
  assert (holds t h (kid :: vid :: rest)) as H0.
  { split; [exact G|]. rewrite Ow. change (kid :: vid :: owned t ++ rest) with ([kid; vid] ++ owned t ++ rest). rewrite Permutation_app_swap_app. reflexivity. }
  assert ((mbind (if ht_limit t <? cast_u32 (ht_count t + 1) then hashtable_expand V loadlimit ok t h else MVal (t, h)) (fun x => MVal x) = MPanic /\ exists n, ok n = false) \/
    exists t1 h1, (if ht_limit t <? cast_u32 (ht_count t + 1) then hashtable_expand V loadlimit ok t h else MVal (t, h)) = MVal (t1, h1) /\
      tok t1 /\ Permutation (entries t1) (entries t) /\ holds t1 h1 (kid :: vid :: rest)) as H1.
  { destruct (ht_limit t <? cast_u32 (ht_count t + 1)).
    - destruct (any_expand ok t h _ O H0) as [(E & F)|H]; [left; rewrite E; split; [reflexivity|exact F]|right; exact H].
    - right. exists t, h. split; [reflexivity|]. split; [exact O|]. split; [reflexivity|exact H0]. }
  destruct H1 as [(E & F)|(t1 & h1 & E & O1 & P1 & G1 & Ow1)].
  - left. split; [|exact F]. destruct (if ht_limit t <? _ then _ else _) as [x| |]; [discriminate|discriminate|reflexivity].
  - rewrite E. cbn [mbind]. destruct (xmalloc_cases ok h1 G1) as [(-> & Fa)|(-> & G2)]; cbn [mbind]; [left; split; [reflexivity|exists (h_calls h1); exact Fa]|right].
    destruct (index_ok V (ht_tab t1) (eh k) (tok_size t1 O1)) as (i & Ei & Eq & Li).
    unfold size_of. cbn [he_h]. rewrite Ei. cbn [cbind].
    destruct (chain_in_ok V hashfn (mkHent (h_calls h1) (eh k) k kid v vid) (ht_tab t1) i (tok_placed t1 O1) Li eq_refl (eq_sym Eq)) as (tab & -> & Pl & L & P).
    cbn [lift mbind]. eexists _, _. split; [reflexivity|].
    assert (Permutation (concat tab) (mkHent (h_calls h1) (eh k) k kid v vid :: entries t)) as PP by (rewrite P; constructor; exact P1).
    split; [|split; [|split; [exact G2|]]].
    + constructor; cbn [set_tab ht_tab ht_count ht_prime]; unfold HashTableProofs.entries; cbn [set_tab ht_tab].
      * rewrite L. exact (tok_size t1 O1).
      * exact Pl.
      * rewrite (tok_count t1 O1), cast_succ, (Permutation_length PP), (Permutation_length P1). cbn [List.length]. f_equal. lia.
      * exact (tok_prime t1 O1).
    + unfold HashTableProofs.entries at 1. cbn [set_tab ht_tab]. rewrite (Permutation_map kv PP). reflexivity.
    + cbn [h_live]. unfold HashTableProofs.owned, HashTableProofs.entries. cbn [set_tab ht_id ht_tid ht_tab]. rewrite Ow1. unfold HashTableProofs.owned. rewrite (flat_perm _ _ _ PP).
      cbn [flat_map HashTableProofs.eids he_kid he_vid he_id app]. rewrite (flat_perm _ _ _ P1).
      set (f := flat_map eids (entries t)). set (a := ht_id t1). set (b := ht_tid t1). set (n := h_calls h1).
      transitivity (a :: b :: n :: f ++ kid :: vid :: rest); [exact (Permutation_middle [a; b] _ n)|]. do 2 constructor.
      change (kid :: vid :: n :: f ++ rest) with ([kid; vid; n] ++ f ++ rest). rewrite Permutation_app_swap_app.
      change (n :: f ++ kid :: vid :: rest) with ([n] ++ f ++ kid :: vid :: rest). rewrite Permutation_app_swap_app. apply Permutation_app_head.
      exact (Permutation_middle [kid; vid] rest n).
Qed.

(** *** Looking up *)
Lemma any_chain t k : tok t -> exists i c, chain_of V hashfn t k = Val (i, c) /\ nth_error (ht_tab t) i = Some c /\
  (forall e, In e c -> In e (entries t)) /\ (forall e, In e (entries t) -> eqfn k (he_k e) = true -> In e c).
Proof.
  intros O. unfold chain_of, size_of. destruct (index_ok V (ht_tab t) (eh k) (tok_size t O)) as (i & -> & Ei & Li). cbn [cbind].
  destruct (nth_error (ht_tab t) i) as [c|] eqn:N; [|apply nth_error_None in N; lia].
  exists i, c. split; [reflexivity|]. split; [exact N|]. split.
  - intros e J. apply in_concat. exists c. split; [exact (nth_error_In _ _ N)|exact J].
  - intros e J K. apply in_concat in J. destruct J as (d & Jd & J). apply In_nth_error in Jd. destruct Jd as (j & Nj).
    destruct (tok_placed t O j d e Nj J) as (H1 & H2). rewrite H1, <- (eh_eq _ _ K), <- Ei in H2. subst j. congruence.
Qed.
Lemma any_matches t k e : tok t -> In e (entries t) -> matches V eqfn (eh k) k e = eqfn k (he_k e).
Proof.
  intros O J. unfold matches. destruct (eqfn k (he_k e)) eqn:E; [|apply andb_false_r]. rewrite (tok_hash t e O J), (eh_eq _ _ E), Z.eqb_refl. reflexivity.
Qed.
Lemma lacks_entries t k : tok t -> forall c, (forall e, In e (entries t) -> eqfn k (he_k e) = true -> In e c) ->
  (forall e, In e c -> In e (entries t)) ->
  (forall e, In e c -> matches V eqfn (eh k) k e = false) -> lacks eqfn (map kv (entries t)) k.
Proof.
  intros O c I2 I1 H k' v J. apply in_map_iff in J. destruct J as (e & E & J). unfold HashTableProofs.kv in E. injection E as <- <-.
  destruct (eqfn k (he_k e)) eqn:Q; [|reflexivity]. pose proof (I2 e J Q) as Jc. rewrite <- Q, <- (any_matches t k e O J). exact (H e Jc).
Qed.
Lemma any_search t k : tok t ->
  exists r, hashtable_search V hashfn eqfn k t = Val r /\
    match r with
    | Some v => exists k', eqfn k k' = true /\ In (k', v) (map kv (entries t))
    | None => lacks eqfn (map kv (entries t)) k
    end.
Proof.
  intros O. unfold hashtable_search. destruct (any_chain t k O) as (i & c & -> & N & I1 & I2). cbn [cbind]. eexists. split; [reflexivity|].
  destruct (find (matches V eqfn (eh k) k) c) as [e|] eqn:F; cbn [option_map].
  - apply find_some in F. destruct F as (J & M). rewrite (any_matches t k e O (I1 e J)) in M. exists (he_k e). split; [exact M|].
    apply in_map_iff. exists e. split; [reflexivity|exact (I1 e J)].
  - apply (lacks_entries t k O c I2 I1). exact (find_none _ _ F).
Qed.

(** Putting [x] for [e] in its chain, or taking it out. *)
Lemma put_out t i c1 c2 e l n : tok t -> nth_error (ht_tab t) i = Some (c1 ++ e :: c2) ->
  (forall x, In x l -> he_h x = he_h e /\ he_k x = he_k e) -> n = cast_u32 (zlen (entries t) - 1 + zlen l) ->
  exists tab, put (ht_tab t) i (c1 ++ l ++ c2) = Val tab /\ (exists r, Permutation (entries t) (e :: r) /\ Permutation (concat tab) (l ++ r)) /\
    tok (set_tab V t tab n).
Proof.
  intros O N Hl ->. destruct (nth_error_split _ _ N) as (T1 & T2 & Et & Li). rewrite Et. rewrite put_at by exact Li.
  eexists. split; [reflexivity|].
  assert (len (T1 ++ (c1 ++ l ++ c2) :: T2) = len (ht_tab t)) as El by (rewrite Et, !app_length; reflexivity).
  set (r := concat T1 ++ c1 ++ c2 ++ concat T2).
  assert (Permutation (entries t) (e :: r)) as P1.
  { unfold HashTableProofs.entries, r. rewrite Et, !concat_mid, <- !app_assoc. cbn [app]. rewrite !app_assoc. symmetry. rewrite <- !app_assoc.
    rewrite !(app_assoc (concat T1)). apply Permutation_middle. }
  assert (Permutation (concat (T1 ++ (c1 ++ l ++ c2) :: T2)) (l ++ r)) as P2.
  { unfold r. rewrite !concat_mid, <- !app_assoc. rewrite !(app_assoc (concat T1)). apply Permutation_app_swap_app. }
  split; [exists r; split; assumption|].
  constructor; cbn [set_tab ht_tab ht_count ht_prime]; unfold HashTableProofs.entries; cbn [set_tab ht_tab].
  - rewrite El. exact (tok_size t O).
  - intros j d x Nj J. rewrite El. rewrite (nth_put V T1 T2 (c1 ++ e :: c2)) in Nj. rewrite <- Et in Nj. destruct (Nat.eqb j (len T1)) eqn:E.
    + apply Nat.eqb_eq in E. injection Nj as <-. subst j. rewrite <- Li in N. rewrite !in_app_iff in J. destruct J as [J|[J|J]].
      * apply (tok_placed t O (len T1) _ x N). apply in_app_iff. left. exact J.
      * destruct (Hl x J) as (-> & ->). apply (tok_placed t O (len T1) _ e N). apply in_app_iff. right. left. reflexivity.
      * apply (tok_placed t O (len T1) _ x N). apply in_app_iff. right. right. exact J.
    + exact (tok_placed t O j d x Nj J).
  - rewrite (Permutation_length P2), app_length. pose proof (Permutation_length P1) as L1. unfold HashTableProofs.entries in L1. rewrite L1. cbn [List.length]. f_equal. lia.
  - exact (tok_prime t O).
Qed.

Lemma any_remove k t h rest : tok t -> holds t h rest ->
  exists t' h', hashtable_remove V hashfn eqfn k t h = MVal (t', h') /\ tok t' /\ holds t' h' rest /\
    does eqfn (Remove k) (map kv (entries t)) (map kv (entries t')) /\
    h_calls h' = h_calls h.
Proof.
  intros O (G & Ow). unfold hashtable_remove. destruct (any_chain t k O) as (i & c & -> & N & I1 & I2). cbn [lift mbind].
  pose proof (unchain_ok V (matches V eqfn (eh k) k) c) as U. destruct (unchain V _ c) as [(e, c')|].
  - destruct U as (c1 & c2 & -> & -> & M).
    destruct (put_out t i c1 c2 e [] (cast_u32 (ht_count t - 1)) O N) as (tab & Ep & (r & P1 & P2) & O'); [intros x []| |].
    { rewrite (tok_count t O), cast_pred. f_equal. cbn. lia. }
    cbn [app] in Ep, P2. rewrite Ep. cbn [lift mbind]. rewrite <- P2 in P1.
    rewrite (any_matches t k e O) in M by (apply I1, in_app_iff; right; left; reflexivity).
    destruct (free_entry_ok V e h _ G (owned_out V t tab (cast_u32 (ht_count t - 1)) e rest h P1 Ow)) as (h' & -> & G' & P' & C'). cbn [mbind].
    eexists _, _. split; [reflexivity|]. split; [exact O'|]. split; [split; assumption|]. split; [|exact C'].
    apply (does_remove _ _ k (he_k e) (he_v e)); [exact M|]. rewrite (Permutation_map kv P1). reflexivity.
  - exists t, h. split; [reflexivity|]. split; [exact O|]. split; [split; assumption|]. split; [|reflexivity]. apply does_nothing; [|reflexivity].
    exact (lacks_entries t k O c I2 I1 U).
Qed.

Lemma change_in_ok p v vid c : match change_in V p v vid c with
  | Some (old, c') => exists c1 e c2, c = c1 ++ e :: c2 /\ c' = c1 ++ mkHent (he_id e) (he_h e) (he_k e) (he_kid e) v vid :: c2 /\ p e = true /\ old = he_vid e
  | None => forall e, In e c -> p e = false
  end.
Proof.
  induction c as [|x c IH]; cbn [change_in]; [intros e []|]. destruct (p x) eqn:E.
  - exists [], x, c. auto.
  - destruct (change_in V p v vid c) as [(old, c')|]; cbn [option_map].
    + destruct IH as (c1 & e & c2 & -> & -> & Pe & ->). exists (x :: c1), e, c2. auto.
    + intros e [<-|J]; [exact E|exact (IH e J)].
Qed.
Lemma any_change k v vid t h rest : tok t -> good h -> Permutation (h_live h) (vid :: owned t ++ rest) ->
  exists taken t' h', hashtable_change V hashfn eqfn k v vid t h = MVal (taken, t', h') /\ tok t' /\
    does eqfn (Change k v) (map kv (entries t)) (map kv (entries t')) /\
    (taken = false <-> lacks eqfn (map kv (entries t)) k) /\
    good h' /\ Permutation (h_live h') ((if taken then [] else [vid]) ++ owned t' ++ rest).
Proof.
  intros O G Ow. unfold hashtable_change. destruct (any_chain t k O) as (i & c & -> & N & I1 & I2). cbn [lift mbind].
  pose proof (change_in_ok (matches V eqfn (eh k) k) v vid c) as U. destruct (change_in V _ v vid c) as [(old, c')|].
  - destruct U as (c1 & e & c2 & -> & -> & M & ->). set (x := mkHent (he_id e) (he_h e) (he_k e) (he_kid e) v vid) in *.
    destruct (put_out t i c1 c2 e [x] (ht_count t) O N) as (tab & Ep & (r & P1 & P2) & O'); [intros y [<-|[]]; split; reflexivity| |].
    { rewrite (tok_count t O). f_equal. cbn. lia. }
    cbn [app] in Ep, P2. rewrite Ep. cbn [lift mbind].
    assert (In e (entries t)) as J by (apply I1, in_app_iff; right; left; reflexivity). rewrite (any_matches t k e O J) in M.
    destruct (xfree_perm (he_vid e) (owned (set_tab V t tab (ht_count t)) ++ rest) h G) as (h' & -> & G' & P' & _).
    { rewrite Ow. unfold HashTableProofs.owned. unfold HashTableProofs.entries at 2. cbn [set_tab ht_id ht_tid ht_tab].
      rewrite (flat_perm _ _ _ P1), (flat_perm _ _ _ P2). subst x. cbn [flat_map HashTableProofs.eids he_kid he_vid he_id app].
      set (f := flat_map eids r ++ rest). set (a := ht_id t). set (b := ht_tid t).
      transitivity (vid :: he_vid e :: a :: b :: he_kid e :: he_id e :: f).
      - constructor. exact (Permutation_sym (Permutation_middle [a; b; he_kid e] (he_id e :: f) (he_vid e))).
      - rewrite perm_swap. constructor. exact (Permutation_middle [a; b; he_kid e] (he_id e :: f) vid). }
    cbn [mbind]. eexists true, _, h'. split; [reflexivity|]. split; [exact O'|]. split; [|split; [|split; [exact G'|exact P']]].
    + apply (does_change _ _ k v (he_k e) (he_v e) (map kv r)); [exact M| |].
      * rewrite (Permutation_map kv P1). reflexivity.
      * unfold HashTableProofs.entries. cbn [set_tab ht_tab]. rewrite (Permutation_map kv P2). reflexivity.
    + split; [discriminate|]. intros L. rewrite (L (he_k e) (he_v e)) in M; [discriminate|]. apply in_map_iff. exists e. split; [reflexivity|exact J].
  - exists false, t, h. split; [reflexivity|]. split; [exact O|]. pose proof (lacks_entries t k O c I2 I1 U) as L.
    split; [apply does_not_change; [exact L|reflexivity]|]. split; [tauto|]. split; [exact G|exact Ow].
Qed.

(** *** Callers *)
Lemma asks_ok ok qs : forall t h, tok t -> holds t h [] ->
  (asks hashfn eqfn loadlimit ok qs t h = MPanic /\ exists n, ok n = false) \/
  (exists t' h', asks hashfn eqfn loadlimit ok qs t h = MVal (t', h') /\ tok t' /\ holds t' h' [] /\
     all_done eqfn qs (map kv (entries t)) (map kv (entries t'))).
Proof.
  induction qs as [|[k v|k|k v] qs IH]; intros t h O (G & Ow); cbn [asks].
  - right. exists t, h. split; [reflexivity|]. split; [exact O|]. split; [split; assumption|]. constructor. reflexivity.
  - destruct (xmalloc_cases ok h G) as [(-> & F)|(-> & G1)]; cbn [mbind]; [left; split; [reflexivity|eexists; exact F]|].
    destruct (xmalloc_cases ok _ G1) as [(-> & F)|(-> & G2)]; cbn [mbind]; [left; split; [reflexivity|eexists; exact F]|].
    cbn [h_live h_calls] in *. match goal with |- context [hashtable_insert _ _ _ _ _ ?a _ ?b _ ?h2] => destruct (any_insert ok k a v b t h2 [] O G2) as [(-> & F)|(t1 & h1 & -> & O1 & P1 & H1)] end.
    + cbn [h_live]. do 2 constructor. exact Ow.
    + left. split; [reflexivity|exact F].
    + cbn [mbind]. destruct (IH t1 h1 O1 H1) as [X|(t2 & h2 & E & O2 & H2 & D)]; [left; exact X|right]. exists t2, h2. split; [exact E|]. split; [exact O2|]. split; [exact H2|].
      econstructor; [|exact D]. constructor. exact P1.
  - destruct (any_remove k t h [] O (conj G Ow)) as (t1 & h1 & -> & O1 & H1 & D1 & _). cbn [mbind].
    destruct (IH t1 h1 O1 H1) as [X|(t2 & h2 & E & O2 & H2 & D)]; [left; exact X|right]. exists t2, h2. split; [exact E|]. split; [exact O2|]. split; [exact H2|].
    econstructor; eassumption.
  - destruct (xmalloc_cases ok h G) as [(-> & F)|(-> & G1)]; cbn [mbind]; [left; split; [reflexivity|eexists; exact F]|].
    destruct (any_change k v (h_calls h) t _ [] O G1) as (taken & t1 & h1 & -> & O1 & D1 & _ & Gh & Ph); [cbn [h_live]; constructor; exact Ow|].
    cbn [mbind].
    assert (exists h2, (if taken then MVal h1 else xfree (h_calls h) h1) = MVal h2 /\ holds t1 h2 []) as (h2 & E2 & H2).
    { destruct taken; cbn [app] in Ph.
      - exists h1. split; [reflexivity|split; assumption].
      - destruct (xfree_perm _ _ h1 Gh Ph) as (h2 & -> & G2 & P2 & _). exists h2. split; [reflexivity|split; assumption]. }
    assert ((if taken then asks hashfn eqfn loadlimit ok qs t1 h1 else mbind (xfree (h_calls h) h1) (fun h => asks hashfn eqfn loadlimit ok qs t1 h)) =
            asks hashfn eqfn loadlimit ok qs t1 h2) as -> by (destruct taken; [congruence|rewrite E2; reflexivity]).
    destruct (IH t1 h2 O1 H2) as [X|(t3 & h3 & E & O3 & H3 & D)]; [left; exact X|right]. exists t3, h3. split; [exact E|]. split; [exact O3|]. split; [exact H3|].
    econstructor; eassumption.
Qed.

Lemma find_prime_ok minsize l : forall i, (forall p, In p l -> 0 < p) -> (exists p, In p l /\ minsize < p) ->
  let '(p, j) := find_prime l i minsize in 0 < p /\ minsize < p /\ (j < i + len l)%nat.
Proof.
  induction l as [|p l IH]; intros i A (q & J & Q); [destruct J|]. cbn [find_prime]. destruct (minsize <? p) eqn:E.
  - apply Z.ltb_lt in E. split; [apply A; left; reflexivity|]. split; [exact E|]. cbn. lia.
  - apply Z.ltb_ge in E. specialize (IH (S i) (fun x X => A x (or_intror X))). destruct (find_prime l (S i) minsize) as (p', j).
    destruct IH as (I1 & I2 & I3); [exists q; destruct J as [<-|J]; [lia|auto]|]. cbn [List.length]. split; [exact I1|]. split; [exact I2|]. lia.
Qed.
Lemma create_ok ok minsize : minsize <= 2 ^ 30 ->
  (hashtable_create V loadlimit ok minsize (mkHeap [] 0) = MPanic /\ exists n, ok n = false) \/
  (exists t h, hashtable_create V loadlimit ok minsize (mkHeap [] 0) = MVal (Some t, h) /\ tok t /\ holds t h [] /\ entries t = [] /\
     minsize < zlen (ht_tab t)).
Proof.
  intros B. unfold hashtable_create. rewrite (proj2 (Z.ltb_ge _ _)) by exact B.
  pose proof (find_prime_ok minsize primes 0 primes_pos) as F. destruct (find_prime primes 0 minsize) as (size, pi).
  destruct F as (F1 & F2 & F3).
  { exists 1610612741. split; [do 25 right; left; reflexivity|]. change (2 ^ 30) with 1073741824 in B. lia. }
  assert (good (mkHeap [] 0)) as G by (split; [constructor|intros i []]).
  destruct (xmalloc_cases ok _ G) as [(-> & X)|(-> & G1)]; cbn [mbind]; [left; split; [reflexivity|eexists; exact X]|].
  destruct (xmalloc_cases ok _ G1) as [(-> & X)|(-> & G2)]; cbn [mbind]; [left; split; [reflexivity|eexists; exact X]|right].
  eexists _, _. split; [reflexivity|]. cbn [h_calls] in *.
  match goal with |- tok ?t /\ _ => assert (entries t = []) as E by apply concat_empty; assert (len (ht_tab t) = Z.to_nat size) as L by apply repeat_length end.
  split; [|split; [|split; [exact E|rewrite L; lia]]].
  - constructor; rewrite ?E; cbn [ht_count ht_prime].
    + rewrite L. lia.
    + apply empty_placed.
    + reflexivity.
    + exact F3.
  - split; [exact G2|]. unfold HashTableProofs.owned. rewrite E. cbn. apply perm_swap.
Qed.

Lemma tok_ahead t : tok t -> zlen (entries t) < U32_MOD -> entries t <> [] -> ahead V t (itr_create V t) (entries t).
Proof.
  intros O B NE. unfold itr_create. rewrite (tok_count t O), cast_u32_id by lia.
  assert (zlen (entries t) <> 0) as NZ by (destruct (entries t); [congruence|cbn; lia]). rewrite (proj2 (Z.eqb_neq _ _) NZ).
  destruct (first_chain V 0 (ht_tab t)) as [j|] eqn:F.
  - destruct (first_chain_some V _ _ _ F) as (U1 & e & d & U2 & E & E1 & ->). exists U1, [], e, d, U2. split; [exact E|]. split; [reflexivity|].
    unfold HashTableProofs.entries. rewrite E, concat_app, E1. reflexivity.
  - apply (first_chain_none V) in F. unfold HashTableProofs.entries in NE. congruence.
Qed.
Lemma visit_ok t : forall l i fuel, l <> [] -> ahead V t i l -> (len l <= fuel)%nat -> visit fuel t i = Some (Val (map kv l)).
Proof.
  induction l as [|e l IH]; intros i fuel NE A L; [congruence|]. destruct fuel as [|fuel]; [cbn in L; lia|]. cbn [visit]. unfold itr_key, itr_value.
  rewrite (ahead_entry V t i e l A). cbn [cbind]. destruct (ahead_advance V t i e l A) as (b & j & -> & H). destruct b.
  - destruct l as [|x l].
    + destruct H as (T1 & c1 & y & c2 & T2 & _ & _ & E). discriminate E.
    + rewrite (IH j fuel); [reflexivity|discriminate|exact H|cbn [List.length] in *; lia].
  - subst l. reflexivity.
Qed.
Lemma visited_ok t fuel : tok t -> zlen (entries t) < U32_MOD -> (len (entries t) <= fuel)%nat -> visited fuel t = Some (Val (map kv (entries t))).
Proof.
  intros O B L. unfold visited, hashtable_count. rewrite (tok_count t O), cast_u32_id by lia. destruct (entries t) as [|e l] eqn:E; [reflexivity|].
  rewrite (proj2 (Z.eqb_neq _ _)) by (cbn [List.length]; lia). rewrite <- E in *. apply visit_ok; [rewrite E; discriminate| |exact L].
  apply tok_ahead; [exact O|exact B|rewrite E; discriminate].
Qed.

(** *** The map *)
Hypothesis equiv : equivalence eqfn.

Definition says (b : list (str * V)) (f : str -> option V) : Prop :=
  (forall k, match f k with
             | Some v => exists k', eqfn k k' = true /\ In (k', v) b
             | None => lacks eqfn b k
             end) /\
  (forall b1 k v b2, b = b1 ++ (k, v) :: b2 -> lacks eqfn (b1 ++ b2) k).

Lemma says_perm b b' f : Permutation b b' -> says b f -> says b' f.
Proof.
  intros P (S1 & S2). split.
  - intros k. specialize (S1 k). destruct (f k) as [v|].
    + destruct S1 as (k' & E & J). exists k'. split; [exact E|]. exact (Permutation_in _ P J).
    + intros k' v J. exact (S1 k' v (Permutation_in _ (Permutation_sym P) J)).
  - intros b1 k v b2 ->. assert (In (k, v) b) as J by (apply (Permutation_in _ (Permutation_sym P)), in_app_iff; right; left; reflexivity).
    apply in_split in J. destruct J as (c1 & c2 & ->). pose proof (S2 c1 k v c2 eq_refl) as L. apply Permutation_app_inv in P.
    intros k' v' J. exact (L k' v' (Permutation_in _ (Permutation_sym P) J)).
Qed.
Lemma eq_sym_false a b : eqfn a b = false -> eqfn b a = false.
Proof. intros E. destruct (eqfn b a) eqn:F; [|reflexivity]. rewrite (proj1 (proj2 equiv) _ _ F) in E. discriminate. Qed.
Lemma eq_left a b c : eqfn a b = true -> eqfn a c = eqfn b c.
Proof.
  destruct equiv as (_ & S & T). intros E. destruct (eqfn b c) eqn:F; [exact (T _ _ _ E F)|]. destruct (eqfn a c) eqn:G; [|reflexivity].
  rewrite (T _ _ _ (S _ _ E) G) in F. discriminate.
Qed.
Lemma says_cons k v b f : lacks eqfn b k -> says b f -> says ((k, v) :: b) (fun x => if eqfn k x then Some v else f x).
Proof.
  destruct equiv as (R & S & T). intros L (S1 & S2). split.
  - intros x. destruct (eqfn k x) eqn:E.
    + exists k. split; [exact (S _ _ E)|left; reflexivity].
    + specialize (S1 x). destruct (f x) as [w|].
      * destruct S1 as (k' & E' & J). exists k'. split; [exact E'|right; exact J].
      * intros k' w [J|J]; [injection J as <- <-; apply eq_sym_false, E|exact (S1 k' w J)].
  - intros [|p b1] x w b2 E; cbn [app] in *.
    + injection E as <- <- ->. exact L.
    + injection E as <- ->. intros k' w' [J|J].
      * injection J as <- <-. apply eq_sym_false. apply (L x w). apply in_app_iff. right. left. reflexivity.
      * exact (S2 b1 x w b2 eq_refl k' w' J).
Qed.
(** Taking one out. *)
Lemma says_out k v b f : says ((k, v) :: b) f -> says b (fun x => if eqfn k x then None else f x) /\ lacks eqfn b k.
Proof.
  destruct equiv as (R & S & T). intros (S1 & S2). pose proof (S2 [] k v b eq_refl) as L. cbn [app] in L. split; [|exact L]. split.
  - intros x. destruct (eqfn k x) eqn:E.
    + intros k' w J. rewrite <- (eq_left k x k' E). exact (L k' w J).
    + specialize (S1 x). destruct (f x) as [w|].
      * destruct S1 as (k' & E' & [J|J]); [injection J as <- <-; rewrite (S _ _ E') in E; discriminate|]. exists k'. auto.
      * intros k' w J. exact (S1 k' w (or_intror J)).
  - intros b1 x w b2 ->. pose proof (S2 ((k, v) :: b1) x w b2 eq_refl) as L'. intros k' w' J. apply (L' k' w'). right. exact J.
Qed.
Lemma says_ext b f g : (forall k, f k = g k) -> says b f -> says b g.
Proof. intros E (S1 & S2). split; [|exact S2]. intros k. rewrite <- E. exact (S1 k). Qed.
Lemma says_none b f k : says b f -> f k = None <-> lacks eqfn b k.
Proof.
  intros (S1 & _). specialize (S1 k). destruct (f k) as [v|]; split; intros H; [discriminate| |exact S1|reflexivity].
  destruct S1 as (k' & E & J). rewrite (H k' v J) in E. discriminate.
Qed.

Lemma does_says q b b' f : does eqfn q b b' -> says b f -> (forall k v, q = Insert k v -> f k = None) -> says b' (fun k => follow eqfn q (f k) k).
Proof.
  destruct equiv as (R & S & T). intros D A N. destruct D as [k v b b' P|k k' v b b' E P|k b b' L P|k v k' old r b b' E P P'|k v b b' L P]; cbn [follow].
  - apply (says_perm _ _ _ (Permutation_sym P)). apply says_cons; [|exact A]. apply (says_none b f k A). exact (N k v eq_refl).
  - pose proof (says_perm _ _ _ P A) as A'. apply says_out in A'. destruct A' as (A' & _). apply (says_ext _ _ _ (fun x => f_equal (fun c : bool => if c then None else f x) (eq_sym (eq_left k k' x E))) A').
  - apply (says_perm _ _ _ P). apply (says_ext b f); [|exact A]. intros x. destruct (eqfn k x) eqn:E; [|reflexivity]. apply (says_none b f x A).
    intros k' w J. rewrite <- (eq_left k x k' E). exact (L k' w J).
  - pose proof (says_perm _ _ _ P A) as A1. pose proof (says_out _ _ _ _ A1) as (A2 & L). apply (says_perm _ _ _ (Permutation_sym P')).
    pose proof (says_cons k' v r _ L A2) as A3. refine (says_ext _ _ _ _ A3). intros x. cbv beta. rewrite (eq_left k k' x E). destruct (eqfn k' x) eqn:F; [|reflexivity].
    destruct (f x) as [w|] eqn:G; [reflexivity|]. exfalso. apply (says_none _ f x A1) in G. rewrite (G k' old (or_introl eq_refl)) in F || (apply S in F; rewrite (G k' old (or_introl eq_refl)) in F); discriminate.
  - apply (says_perm _ _ _ P). apply (says_ext b f); [|exact A]. intros x. destruct (eqfn k x) eqn:E; [|reflexivity].
    assert (f x = None) as ->; [|reflexivity]. apply (says_none b f x A). intros k' w J. rewrite <- (eq_left k x k' E). exact (L k' w J).
Qed.

Lemma all_says qs : forall b b' f, all_done eqfn qs b b' -> says b f ->
  (forall before k v after, qs = before ++ Insert k v :: after -> fold_left (fun now q => follow eqfn q now k) before (f k) = None) ->
  says b' (fun k => fold_left (fun now q => follow eqfn q now k) qs (f k)).
Proof.
  induction qs as [|q qs IH]; intros b b' f D A N.
  - inversion D; subst. cbn [fold_left]. exact (says_perm _ _ _ H A).
  - inversion D as [|q' qs' b0 b1 b2 D1 D2]; subst. cbn [fold_left].
    apply (IH b1 b' (fun k => follow eqfn q (f k) k) D2).
    + apply (does_says q b b1 f D1 A). intros k v ->. exact (N [] k v qs eq_refl).
    + intros before k v after ->. exact (N (q :: before) k v after eq_refl).
Qed.
Lemma says_nil : says [] (fun _ => None).
Proof. split; [intros k k' v []|]. intros b1 k v b2 E. destruct b1; discriminate. Qed.
End T.
