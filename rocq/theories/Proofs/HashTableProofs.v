(** The hash table is a finite map, and its memory is returned. *)
From Coq Require Import ZArith Bool List Ascii Arith Lia Permutation.
From Verif.Base Require Import CInt CStr CMem.
From Verif.Model Require Import ArgMemory HashTable.
From Verif.Proofs Require Import ArgMemoryProofs.
Import ListNotations.
Open Scope list_scope.
Open Scope Z_scope.

Local Notation len := List.length.
Local Notation zlen l := (Z.of_nat (List.length l)).

(** ** The heap *)
Lemma remove_perm i (a b : list nat) : Permutation a b -> Permutation (remove Nat.eq_dec i a) (remove Nat.eq_dec i b).
Proof.
  induction 1 as [|x a b P IH|x y a|a b c P1 IH1 P2 IH2]; cbn.
  - constructor.
  - destruct (Nat.eq_dec i x); [exact IH|constructor; exact IH].
  - destruct (Nat.eq_dec i y), (Nat.eq_dec i x); try reflexivity. constructor.
  - rewrite IH1. exact IH2.
Qed.
Lemma xfree_perm i r h : good h -> Permutation (h_live h) (i :: r) ->
  exists h', xfree i h = MVal h' /\ good h' /\ Permutation (h_live h') r /\ h_calls h' = h_calls h.
Proof.
  intros (N & G) P. unfold xfree. rewrite in_existsb by (apply (Permutation_in i (Permutation_sym P)); left; reflexivity).
  eexists. split; [reflexivity|]. cbn [h_live h_calls]. split; [|split; [|reflexivity]].
  - split; cbn [h_live h_calls]; [apply NoDup_remove_all, N|]. intros j J. apply in_remove in J. apply G, J.
  - assert (~ In i r) as NI by (pose proof (Permutation_NoDup P N) as D; inversion D; assumption).
    rewrite (remove_perm i _ _ P). cbn [remove]. destruct (Nat.eq_dec i i) as [_|D]; [|destruct (D eq_refl)]. rewrite notin_remove by exact NI. reflexivity.
Qed.

Section T.
Variable V : Type.
Variable loadlimit : Z -> Z.
Variable hashfn : str -> Z.
Variable eqfn : str -> str -> bool.
Hypothesis eqfn_eq : forall a b, eqfn a b = true <-> a = b.

Local Notation hent := (hent V).
Local Notation htab := (htab V).
Local Notation eh := (enhanced_hash hashfn).

Definition entries (t : htab) : list hent := concat (ht_tab t).
Definition kv (e : hent) : str * V := (he_k e, he_v e).
Definition placed (tab : list (list hent)) : Prop :=
  forall i c e, nth_error tab i = Some c -> In e c -> he_h e = eh (he_k e) /\ Z.to_nat (he_h e mod zlen tab) = i.
Record table_ok (t : htab) : Prop := mkOk {
  ok_size : (0 < len (ht_tab t))%nat;
  ok_placed : placed (ht_tab t);
  ok_keys : NoDup (map he_k (entries t));
  ok_count : ht_count t = cast_u32 (zlen (entries t));
  ok_prime : (ht_prime t < len primes)%nat
}.

(** *** Chains *)
Lemma nth_put (T1 T2 : list (list hent)) c c' j :
  nth_error (T1 ++ c' :: T2) j = if Nat.eqb j (len T1) then Some c' else nth_error (T1 ++ c :: T2) j.
Proof.
  destruct (Nat.eqb j (len T1)) eqn:E.
  - apply Nat.eqb_eq in E. subst j. rewrite nth_error_app2, Nat.sub_diag by lia. reflexivity.
  - apply Nat.eqb_neq in E. destruct (Nat.lt_ge_cases j (len T1)) as [L|L].
    + rewrite !nth_error_app1 by exact L. reflexivity.
    + rewrite !nth_error_app2 by exact L. destruct (j - len T1)%nat as [|k] eqn:D; [lia|]. reflexivity.
Qed.
Lemma split_tab (tab : list (list hent)) i : (i < len tab)%nat -> exists T1 c T2, tab = T1 ++ c :: T2 /\ len T1 = i /\ nth_error tab i = Some c.
Proof.
  intros L. destruct (nth_error tab i) as [c|] eqn:E; [|apply nth_error_None in E; lia].
  destruct (nth_error_split _ _ E) as (T1 & T2 & E1 & E2). exists T1, c, T2. auto.
Qed.
Lemma index_ok (tab : list (list hent)) hv : (0 < len tab)%nat ->
  exists i, index_for (zlen tab) hv = Val i /\ i = Z.to_nat (hv mod zlen tab) /\ (i < len tab)%nat.
Proof.
  intros L. unfold index_for. rewrite (proj2 (Z.eqb_neq _ _)) by lia. eexists. split; [reflexivity|]. split; [reflexivity|].
  pose proof (Z.mod_pos_bound hv (zlen tab) ltac:(lia)). lia.
Qed.
Lemma concat_mid (T1 T2 : list (list hent)) c : concat (T1 ++ c :: T2) = concat T1 ++ c ++ concat T2.
Proof. rewrite concat_app. reflexivity. Qed.

Lemma chain_in_ok e tab i : placed tab -> (i < len tab)%nat -> he_h e = eh (he_k e) -> Z.to_nat (he_h e mod zlen tab) = i ->
  exists tab', chain_in V e i tab = Val tab' /\ placed tab' /\ len tab' = len tab /\ Permutation (concat tab') (e :: concat tab).
Proof.
  intros Pl L H I. destruct (split_tab tab i L) as (T1 & c & T2 & -> & Li & Ni). unfold chain_in. rewrite Ni. rewrite put_at by exact Li.
  eexists. split; [reflexivity|]. assert (len (T1 ++ (e :: c) :: T2) = len (T1 ++ c :: T2)) as El by (rewrite !app_length; reflexivity).
  split; [|split; [exact El|]].
  - intros j d x Nj J. rewrite El. rewrite (nth_put T1 T2 c) in Nj. destruct (Nat.eqb j (len T1)) eqn:E.
    + apply Nat.eqb_eq in E. injection Nj as <-. destruct J as [<-|J]; [split; [exact H|congruence]|].
      rewrite E. apply (Pl (len T1) c x); [|exact J]. rewrite Li. exact Ni.
    + exact (Pl j d x Nj J).
  - rewrite !concat_mid. cbn [app]. rewrite <- Permutation_middle. reflexivity.
Qed.

Lemma move_chain_ok c size : forall tab, placed tab -> zlen tab = size -> (0 < len tab)%nat -> (forall e, In e c -> he_h e = eh (he_k e)) ->
  exists tab', move_chain V c size tab = Val tab' /\ placed tab' /\ len tab' = len tab /\ Permutation (concat tab') (c ++ concat tab).
Proof.
  induction c as [|e c IH]; intros tab Pl <- L H; cbn [move_chain].
  - exists tab. split; [reflexivity|]. split; [exact Pl|]. split; reflexivity.
  - destruct (index_ok tab (he_h e) L) as (i & -> & Ei & Li). cbn [cbind].
    destruct (chain_in_ok e tab i Pl Li (H e (or_introl eq_refl)) (eq_sym Ei)) as (tab1 & -> & Pl1 & L1 & P1). cbn [cbind].
    destruct (IH tab1 Pl1 ltac:(rewrite L1; reflexivity) ltac:(lia) (fun x J => H x (or_intror J))) as (tab2 & E2 & Pl2 & L2 & P2).
    exists tab2. split; [exact E2|]. split; [exact Pl2|]. split; [congruence|]. rewrite P2, P1. cbn [app]. symmetry. apply Permutation_middle.
Qed.
Lemma move_all_ok old size : forall tab, placed tab -> zlen tab = size -> (0 < len tab)%nat -> (forall e, In e (concat old) -> he_h e = eh (he_k e)) ->
  exists tab', move_all V old size tab = Val tab' /\ placed tab' /\ len tab' = len tab /\ Permutation (concat tab') (concat old ++ concat tab).
Proof.
  induction old as [|c old IH]; intros tab Pl El L H; cbn [move_all].
  - exists tab. split; [reflexivity|]. split; [exact Pl|]. split; reflexivity.
  - cbn [concat] in H. destruct (move_chain_ok c size tab Pl El L) as (tab1 & -> & Pl1 & L1 & P1); [intros e J; apply H, in_app_iff; left; exact J|]. cbn [cbind].
    destruct (IH tab1 Pl1 ltac:(congruence) ltac:(lia)) as (tab2 & E2 & Pl2 & L2 & P2); [intros e J; apply H, in_app_iff; right; exact J|].
    exists tab2. split; [exact E2|]. split; [exact Pl2|]. split; [congruence|]. rewrite P2, P1. cbn [concat]. rewrite app_assoc.
    apply Permutation_app_tail. apply Permutation_app_comm.
Qed.

Lemma empty_placed n : placed (repeat [] n).
Proof. intros i c e N J. apply nth_error_In, repeat_spec in N. subst c. destruct J. Qed.
Lemma concat_empty n : concat (repeat (@nil hent) n) = [].
Proof. induction n; [reflexivity|]. exact IHn. Qed.
Lemma primes_pos p : In p primes -> 0 < p.
Proof. cbn. intros H. repeat (destruct H as [<-|H]; [lia|]). destruct H. Qed.

(** *** Memory *)
Definition eids (e : hent) : list nat := [he_kid e; he_vid e; he_id e].
Definition owned (t : htab) : list nat := ht_id t :: ht_tid t :: flat_map eids (entries t).
Definition holds (t : htab) (h : heap) (rest : list nat) : Prop := good h /\ Permutation (h_live h) (owned t ++ rest).

Lemma flat_perm (a b : list hent) : Permutation a b -> Permutation (flat_map eids a) (flat_map eids b).
Proof. intros P. apply Permutation_flat_map, P. Qed.

(** *** Operations *)
Lemma placed_hash t e : table_ok t -> In e (entries t) -> he_h e = eh (he_k e).
Proof.
  intros O J. apply in_concat in J. destruct J as (c & Jc & J). apply In_nth_error in Jc. destruct Jc as (i & Ni). exact (proj1 (ok_placed t O i c e Ni J)).
Qed.

Lemma expand_ok ok t h rest : table_ok t -> holds t h rest ->
  (hashtable_expand V loadlimit ok t h = MPanic /\ exists n, ok n = false) \/
  (exists t' h', hashtable_expand V loadlimit ok t h = MVal (t', h') /\ table_ok t' /\ Permutation (entries t') (entries t) /\ holds t' h' rest).
Proof.
  intros O (G & Ow). unfold hashtable_expand. destruct (Nat.eqb (ht_prime t) (len primes - 1)) eqn:E.
  - right. exists t, h. split; [reflexivity|]. split; [exact O|]. split; [reflexivity|split; assumption].
  - apply Nat.eqb_neq in E. pose proof (ok_prime t O) as Op. destruct (nth_error primes (S (ht_prime t))) as [size|] eqn:Np; [|apply nth_error_None in Np; lia].
    pose proof (primes_pos size (nth_error_In _ _ Np)) as Sz.
    destruct (xmalloc_cases ok h G) as [(-> & Fa)|(-> & G1)]; cbn [mbind]; [left; split; [reflexivity|exists (h_calls h); exact Fa]|right].
    destruct (move_all_ok (ht_tab t) size (repeat [] (Z.to_nat size)) (empty_placed _) ltac:(rewrite repeat_length; lia) ltac:(rewrite repeat_length; lia)
      (fun e => placed_hash t e O)) as (tab & -> & Pl & L & P). cbn [lift mbind]. rewrite concat_empty, app_nil_r in P. rewrite repeat_length in L.
    destruct (xfree_perm (ht_tid t) (h_calls h :: ht_id t :: flat_map eids (entries t) ++ rest) _ G1) as (h2 & -> & G2 & P2 & _).
    { cbn [h_live]. rewrite Ow. unfold owned. cbn [app]. symmetry. exact (Permutation_middle [h_calls h; ht_id t] _ (ht_tid t)). }
    cbn [mbind]. eexists _, _. split; [reflexivity|]. split; [|split; [exact P|split; [exact G2|]]].
    + constructor; cbn [ht_tab ht_count ht_prime].
      * lia.
      * exact Pl.
      * unfold entries. cbn [ht_tab]. apply (Permutation_NoDup (l := map he_k (entries t))); [|exact (ok_keys t O)]. apply Permutation_map. symmetry. exact P.
      * unfold entries. cbn [ht_tab]. rewrite (Permutation_length P). exact (ok_count t O).
      * lia.
    + rewrite P2. unfold owned, entries. cbn [ht_id ht_tid ht_tab app]. rewrite (perm_swap (ht_id t)). do 2 constructor. apply Permutation_app_tail, flat_perm.
      symmetry. exact P.
Qed.

Lemma cast_succ n : cast_u32 (cast_u32 n + 1) = cast_u32 (n + 1).
Proof. unfold cast_u32. rewrite Zplus_mod_idemp_l. reflexivity. Qed.
Lemma cast_pred n : cast_u32 (cast_u32 n - 1) = cast_u32 (n - 1).
Proof. unfold cast_u32. rewrite Zminus_mod_idemp_l. reflexivity. Qed.

Lemma insert_ok ok k kid v vid t h rest : table_ok t -> good h -> Permutation (h_live h) (kid :: vid :: owned t ++ rest) -> ~ In k (map he_k (entries t)) ->
  (hashtable_insert V loadlimit hashfn ok k kid v vid t h = MPanic /\ exists n, ok n = false) \/
  (exists t' h', hashtable_insert V loadlimit hashfn ok k kid v vid t h = MVal (t', h') /\ table_ok t' /\
     Permutation (map kv (entries t')) ((k, v) :: map kv (entries t)) /\ holds t' h' rest).
Proof.
  intros O G Ow Nk. unfold hashtable_insert.
  assert (holds t h (kid :: vid :: rest)) as H0.
  { split; [exact G|]. rewrite Ow. change (kid :: vid :: owned t ++ rest) with ([kid; vid] ++ owned t ++ rest). rewrite Permutation_app_swap_app. reflexivity. }
  assert ((mbind (if ht_limit t <? cast_u32 (ht_count t + 1) then hashtable_expand V loadlimit ok t h else MVal (t, h)) (fun x => MVal x) = MPanic /\ exists n, ok n = false) \/
    exists t1 h1, (if ht_limit t <? cast_u32 (ht_count t + 1) then hashtable_expand V loadlimit ok t h else MVal (t, h)) = MVal (t1, h1) /\
      table_ok t1 /\ Permutation (entries t1) (entries t) /\ holds t1 h1 (kid :: vid :: rest)) as H1.
  { destruct (ht_limit t <? cast_u32 (ht_count t + 1)).
    - destruct (expand_ok ok t h _ O H0) as [(E & F)|H]; [left; rewrite E; split; [reflexivity|exact F]|right; exact H].
    - right. exists t, h. split; [reflexivity|]. split; [exact O|]. split; [reflexivity|exact H0]. }
  destruct H1 as [(E & F)|(t1 & h1 & E & O1 & P1 & G1 & Ow1)].
  - left. split; [|exact F]. destruct (if ht_limit t <? _ then _ else _) as [x| |]; [discriminate|discriminate|reflexivity].
  - rewrite E. cbn [mbind]. destruct (xmalloc_cases ok h1 G1) as [(-> & Fa)|(-> & G2)]; cbn [mbind]; [left; split; [reflexivity|exists (h_calls h1); exact Fa]|right].
    destruct (index_ok (ht_tab t1) (eh k) (ok_size t1 O1)) as (i & Ei & Eq & Li).
    unfold size_of. cbn [he_h]. rewrite Ei. cbn [cbind].
    destruct (chain_in_ok (mkHent (h_calls h1) (eh k) k kid v vid) (ht_tab t1) i (ok_placed t1 O1) Li eq_refl (eq_sym Eq)) as (tab & -> & Pl & L & P).
    cbn [lift mbind]. eexists _, _. split; [reflexivity|].
    assert (Permutation (concat tab) (mkHent (h_calls h1) (eh k) k kid v vid :: entries t)) as PP by (rewrite P; constructor; exact P1).
    split; [|split; [|split; [exact G2|]]].
    + constructor; cbn [set_tab ht_tab ht_count ht_prime]; unfold entries; cbn [set_tab ht_tab].
      * rewrite L. exact (ok_size t1 O1).
      * exact Pl.
      * apply (Permutation_NoDup (l := map he_k (mkHent (h_calls h1) (eh k) k kid v vid :: entries t))); [apply Permutation_map; symmetry; exact PP|].
        cbn [map he_k]. constructor; [exact Nk|exact (ok_keys t O)].
      * rewrite (ok_count t1 O1), cast_succ, (Permutation_length PP), (Permutation_length P1). cbn [List.length]. f_equal. lia.
      * exact (ok_prime t1 O1).
    + unfold entries at 1. cbn [set_tab ht_tab]. rewrite (Permutation_map kv PP). reflexivity.
    + cbn [h_live]. unfold owned, entries. cbn [set_tab ht_id ht_tid ht_tab]. rewrite Ow1. unfold owned. rewrite (flat_perm _ _ PP). cbn [flat_map eids he_kid he_vid he_id app].
      rewrite (flat_perm _ _ P1).
      set (f := flat_map eids (entries t)). set (a := ht_id t1). set (b := ht_tid t1). set (n := h_calls h1).
      transitivity (a :: b :: n :: f ++ kid :: vid :: rest); [exact (Permutation_middle [a; b] _ n)|]. do 2 constructor.
      change (kid :: vid :: n :: f ++ rest) with ([kid; vid; n] ++ f ++ rest). rewrite Permutation_app_swap_app.
      change (n :: f ++ kid :: vid :: rest) with ([n] ++ f ++ kid :: vid :: rest). rewrite Permutation_app_swap_app. apply Permutation_app_head.
      exact (Permutation_middle [kid; vid] rest n).
Qed.

(** *** Looking up *)
Lemma chain_of_ok t k : table_ok t -> exists i c, chain_of V hashfn t k = Val (i, c) /\ nth_error (ht_tab t) i = Some c /\
  (forall e, In e c -> In e (entries t)) /\ (forall e, In e (entries t) -> he_k e = k -> In e c).
Proof.
  intros O. unfold chain_of, size_of. destruct (index_ok (ht_tab t) (eh k) (ok_size t O)) as (i & -> & Ei & Li). cbn [cbind].
  destruct (nth_error (ht_tab t) i) as [c|] eqn:N; [|apply nth_error_None in N; lia].
  exists i, c. split; [reflexivity|]. split; [exact N|]. split.
  - intros e J. apply in_concat. exists c. split; [exact (nth_error_In _ _ N)|exact J].
  - intros e J K. apply in_concat in J. destruct J as (d & Jd & J). apply In_nth_error in Jd. destruct Jd as (j & Nj).
    destruct (ok_placed t O j d e Nj J) as (H1 & H2). rewrite H1, K, <- Ei in H2. subst j. congruence.
Qed.
Lemma matches_key t k e : table_ok t -> In e (entries t) -> matches V eqfn (eh k) k e = true <-> he_k e = k.
Proof.
  intros O J. unfold matches. rewrite andb_true_iff, eqfn_eq, Z.eqb_eq, (placed_hash t e O J). split; [intros (_ & E); auto|intros ->; auto].
Qed.
Lemma key_unique t e e' : table_ok t -> In e (entries t) -> In e' (entries t) -> he_k e = he_k e' -> e = e'.
Proof.
  intros O. pose proof (ok_keys t O) as N. induction (entries t) as [|x l IH]; [intros []|]. cbn [map] in N. inversion N; subst.
  intros [<-|J] [<-|J'] E; try reflexivity.
  - destruct H1. rewrite E. apply in_map, J'.
  - destruct H1. rewrite <- E. apply in_map, J.
  - apply IH; assumption.
Qed.
Lemma search_ok t k : table_ok t ->
  exists r, hashtable_search V hashfn eqfn k t = Val r /\ (forall v, r = Some v <-> In (k, v) (map kv (entries t))).
Proof.
  intros O. unfold hashtable_search. destruct (chain_of_ok t k O) as (i & c & -> & N & I1 & I2). cbn [cbind]. eexists. split; [reflexivity|].
  destruct (find (matches V eqfn (eh k) k) c) as [e|] eqn:F; cbn [option_map].
  - apply find_some in F. destruct F as (J & M). apply (matches_key t k e O (I1 e J)) in M. intros v. rewrite in_map_iff. split.
    + intros E. injection E as <-. exists e. split; [unfold kv; rewrite M; reflexivity|exact (I1 e J)].
    + intros (e' & E & J'). unfold kv in E. injection E as E1 <-. f_equal. f_equal. apply (key_unique t); [exact O|exact (I1 e J)|exact J'|congruence].
  - intros v. split; [discriminate|]. rewrite in_map_iff. intros (e' & E & J'). unfold kv in E. injection E as E1 <-.
    pose proof (find_none _ _ F e' (I2 e' J' E1)) as M. rewrite (proj2 (matches_key t k e' O J') E1) in M. discriminate.
Qed.

Lemma unchain_ok p c : match unchain V p c with
  | Some (e, c') => exists c1 c2, c = c1 ++ e :: c2 /\ c' = c1 ++ c2 /\ p e = true
  | None => forall e, In e c -> p e = false
  end.
Proof.
  induction c as [|x c IH]; cbn [unchain]; [intros e []|]. destruct (p x) eqn:E.
  - exists [], c. auto.
  - destruct (unchain V p c) as [(e, c')|]; cbn [option_map].
    + destruct IH as (c1 & c2 & -> & -> & Pe). exists (x :: c1), c2. auto.
    + intros e [<-|J]; [exact E|exact (IH e J)].
Qed.

Lemma free_entry_ok e h rest : good h -> Permutation (h_live h) (eids e ++ rest) ->
  exists h', free_entry V e h = MVal h' /\ good h' /\ Permutation (h_live h') rest /\ h_calls h' = h_calls h.
Proof.
  intros G P. unfold free_entry. destruct (xfree_perm _ _ h G P) as (h1 & -> & G1 & P1 & C1). cbn [mbind].
  destruct (xfree_perm _ _ h1 G1 P1) as (h2 & -> & G2 & P2 & C2). cbn [mbind].
  destruct (xfree_perm _ _ h2 G2 P2) as (h3 & -> & G3 & P3 & C3). exists h3. split; [reflexivity|]. split; [exact G3|]. split; [exact P3|congruence].
Qed.

(** Taking an entry out of its chain. *)
Lemma take_out t i c1 c2 e : table_ok t -> nth_error (ht_tab t) i = Some (c1 ++ e :: c2) ->
  exists tab, put (ht_tab t) i (c1 ++ c2) = Val tab /\ Permutation (entries t) (e :: concat tab) /\ nth_error tab i = Some (c1 ++ c2) /\
    len tab = len (ht_tab t) /\ table_ok (set_tab V t tab (cast_u32 (ht_count t - 1))) /\
    (exists T1 T2, ht_tab t = T1 ++ (c1 ++ e :: c2) :: T2 /\ tab = T1 ++ (c1 ++ c2) :: T2 /\ len T1 = i).
Proof.
  intros O N. destruct (nth_error_split _ _ N) as (T1 & T2 & Et & Li). rewrite Et. rewrite put_at by exact Li.
  eexists. split; [reflexivity|].
  assert (len (T1 ++ (c1 ++ c2) :: T2) = len (ht_tab t)) as El by (rewrite Et, !app_length; reflexivity).
  assert (Permutation (entries t) (e :: concat (T1 ++ (c1 ++ c2) :: T2))) as PP.
  { unfold entries. rewrite Et, !concat_mid, <- !app_assoc. cbn [app]. rewrite !app_assoc. symmetry. rewrite <- !app_assoc.
    rewrite !(app_assoc (concat T1)). apply Permutation_middle. }
  split; [exact PP|]. split; [rewrite nth_error_app2, <- Li, Nat.sub_diag by lia; reflexivity|]. split; [rewrite El, Et; reflexivity|]. split; [|exists T1, T2; auto].
  constructor; cbn [set_tab ht_tab ht_count ht_prime]; unfold entries; cbn [set_tab ht_tab].
  - rewrite El. exact (ok_size t O).
  - intros j d x Nj J. rewrite El. rewrite (nth_put T1 T2 (c1 ++ e :: c2)) in Nj. rewrite <- Et in Nj. destruct (Nat.eqb j (len T1)) eqn:E.
    + apply Nat.eqb_eq in E. injection Nj as <-. subst j. apply (ok_placed t O (len T1) (c1 ++ e :: c2) x); [rewrite Li; exact N|].
      rewrite in_app_iff in *. destruct J; [left|right; right]; assumption.
    + exact (ok_placed t O j d x Nj J).
  - pose proof (Permutation_NoDup (Permutation_map he_k PP) (ok_keys t O)) as D. cbn [map] in D. inversion D; assumption.
  - rewrite (ok_count t O), cast_pred, (Permutation_length PP). cbn [List.length]. f_equal. lia.
  - exact (ok_prime t O).
Qed.
Lemma owned_out t tab n e rest h : Permutation (entries t) (e :: concat tab) -> Permutation (h_live h) (owned t ++ rest) ->
  Permutation (h_live h) (eids e ++ owned (set_tab V t tab n) ++ rest).
Proof.
  intros PP Ow. rewrite Ow. unfold owned. rewrite (flat_perm _ _ PP). unfold entries. cbn [set_tab ht_id ht_tid ht_tab flat_map].
  change (ht_id t :: ht_tid t :: eids e ++ flat_map eids (concat tab)) with ([ht_id t; ht_tid t] ++ eids e ++ flat_map eids (concat tab)).
  rewrite Permutation_app_swap_app, <- app_assoc. reflexivity.
Qed.

Lemma remove_ok k t h rest : table_ok t -> holds t h rest ->
  exists t' h', hashtable_remove V hashfn eqfn k t h = MVal (t', h') /\ table_ok t' /\ holds t' h' rest /\
    ((~ In k (map he_k (entries t)) /\ t' = t /\ h' = h) \/
     exists v, Permutation (map kv (entries t)) ((k, v) :: map kv (entries t'))).
Proof.
  intros O (G & Ow). unfold hashtable_remove. destruct (chain_of_ok t k O) as (i & c & -> & N & I1 & I2). cbn [lift mbind].
  pose proof (unchain_ok (matches V eqfn (eh k) k) c) as U. destruct (unchain V _ c) as [(e, c')|].
  - destruct U as (c1 & c2 & -> & -> & M). destruct (take_out t i c1 c2 e O N) as (tab & -> & PP & _ & _ & O' & _). cbn [lift mbind].
    apply (matches_key t k e O) in M; [|apply I1, in_app_iff; right; left; reflexivity].
    destruct (free_entry_ok e h _ G (owned_out t tab (cast_u32 (ht_count t - 1)) e rest h PP Ow)) as (h' & -> & G' & P' & _). cbn [mbind].
    eexists _, _. split; [reflexivity|]. split; [exact O'|]. split; [split; assumption|]. right. exists (he_v e).
    rewrite (Permutation_map kv PP). cbn [map]. unfold kv at 1. rewrite M. reflexivity.
  - exists t, h. split; [reflexivity|]. split; [exact O|]. split; [split; assumption|]. left. split; [|auto].
    rewrite in_map_iff. intros (e & K & J). pose proof (U e (I2 e J K)) as M. rewrite (proj2 (matches_key t k e O J) K) in M. discriminate.
Qed.

(** *** Giving everything back *)
Lemma free_chain_ok c : forall h rest, good h -> Permutation (h_live h) (flat_map eids c ++ rest) ->
  exists h', free_chain V c h = MVal h' /\ good h' /\ Permutation (h_live h') rest.
Proof.
  induction c as [|e c IH]; intros h rest G P; cbn [free_chain].
  - exists h. auto.
  - cbn [flat_map] in P. rewrite <- app_assoc in P. destruct (free_entry_ok e h _ G P) as (h1 & -> & G1 & P1 & _). cbn [mbind]. exact (IH h1 rest G1 P1).
Qed.
Lemma free_chains_ok tab : forall h rest, good h -> Permutation (h_live h) (flat_map eids (concat tab) ++ rest) ->
  exists h', free_chains V tab h = MVal h' /\ good h' /\ Permutation (h_live h') rest.
Proof.
  induction tab as [|c tab IH]; intros h rest G P; cbn [free_chains].
  - exists h. auto.
  - cbn [concat] in P. rewrite flat_map_app, <- app_assoc in P. destruct (free_chain_ok c h _ G P) as (h1 & -> & G1 & P1). cbn [mbind]. exact (IH h1 rest G1 P1).
Qed.
Lemma destroy_ok t h rest : holds t h rest -> exists h', hashtable_destroy V t h = MVal h' /\ good h' /\ Permutation (h_live h') rest.
Proof.
  intros (G & Ow). unfold hashtable_destroy.
  destruct (free_chains_ok (ht_tab t) h (ht_tid t :: ht_id t :: rest) G) as (h1 & -> & G1 & P1).
  { rewrite Ow. unfold owned. cbn [app]. fold (entries t).
    transitivity (ht_tid t :: ht_id t :: flat_map eids (entries t) ++ rest); [apply perm_swap|].
    exact (Permutation_app_swap_app [ht_tid t; ht_id t] (flat_map eids (entries t)) rest). }
  cbn [mbind]. destruct (xfree_perm _ _ h1 G1 P1) as (h2 & -> & G2 & P2 & _). cbn [mbind].
  destruct (xfree_perm _ _ h2 G2 P2) as (h3 & -> & G3 & P3 & _). exists h3. auto.
Qed.

(** *** Walking *)
Lemma first_chain_none i tab : first_chain V i tab = None -> concat tab = [].
Proof. revert i. induction tab as [|[|e c] tab IH]; intros i; cbn; [reflexivity|exact (IH (S i))|discriminate]. Qed.
Lemma first_chain_some i tab j : first_chain V i tab = Some j ->
  exists T1 e c T2, tab = T1 ++ (e :: c) :: T2 /\ concat T1 = [] /\ j = (i + len T1)%nat.
Proof.
  revert i. induction tab as [|[|e c] tab IH]; intros i; cbn [first_chain]; [discriminate| |].
  - intros E. destruct (IH (S i) E) as (T1 & e & c & T2 & -> & E1 & ->). exists ([] :: T1), e, c, T2. split; [reflexivity|]. split; [exact E1|]. cbn [List.length]. lia.
  - intros E. injection E as <-. exists [], e, c, tab. split; [reflexivity|]. split; [reflexivity|]. cbn. lia.
Qed.

(** What is still before the iterator, from its own entry on. *)
Definition ahead (t : htab) (i : hitr) (l : list hent) : Prop :=
  exists T1 c1 e c2 T2, ht_tab t = T1 ++ (c1 ++ e :: c2) :: T2 /\ i = mkHitr (len T1) (Some (len c1)) /\ l = e :: c2 ++ concat T2.
Lemma nth_mid A (a b : list A) x n : len a = n -> nth_error (a ++ x :: b) n = Some x.
Proof. intros <-. rewrite nth_error_app2, Nat.sub_diag by lia. reflexivity. Qed.
Lemma skipn_mid A (a b : list A) x : skipn (S (len a)) (a ++ x :: b) = b.
Proof. induction a as [|y a IH]; [reflexivity|exact IH]. Qed.
Lemma next_chain_ok t T1 c T2 : ht_tab t = T1 ++ c :: T2 ->
  match itr_next_chain V t (len T1) with
  | (true, i) => ahead t i (concat T2)
  | (false, _) => concat T2 = []
  end.
Proof.
  intros E. unfold itr_next_chain. rewrite E, skipn_mid. destruct (first_chain V (S (len T1)) T2) as [j|] eqn:F.
  - destruct (first_chain_some _ _ _ F) as (U1 & e & d & U2 & -> & E1 & ->). exists (T1 ++ c :: U1), [], e, d, U2. split; [|split].
    + rewrite E. cbn [app]. rewrite <- app_assoc. reflexivity.
    + f_equal. rewrite app_length. cbn [List.length]. lia.
    + rewrite concat_app, E1. reflexivity.
  - exact (first_chain_none _ _ F).
Qed.
Lemma ahead_entry t i e l : ahead t i (e :: l) -> itr_entry V t i = Val e.
Proof.
  intros (T1 & c1 & x & c2 & T2 & E & -> & El). injection El as -> ->. unfold itr_entry. cbn [it_pos it_index].
  rewrite E, nth_mid by reflexivity. rewrite nth_mid by reflexivity. reflexivity.
Qed.
Lemma ahead_advance t i e l : ahead t i (e :: l) ->
  exists b j, itr_advance V t i = Val (b, j) /\ if b then ahead t j l else l = [].
Proof.
  intros (T1 & c1 & x & c2 & T2 & E & -> & El). injection El as -> ->. unfold itr_advance. cbn [it_pos it_index].
  rewrite E, nth_mid by reflexivity. rewrite nth_mid by reflexivity. destruct c2 as [|y c2].
  - replace (nth_error (c1 ++ [x]) (S (len c1))) with (@None hent) by (symmetry; apply nth_error_None; rewrite app_length; cbn; lia).
    pose proof (next_chain_ok t T1 _ T2 E) as H. destruct (itr_next_chain V t (len T1)) as (b, j). exists b, j. split; [reflexivity|exact H].
  - replace (c1 ++ x :: y :: c2) with ((c1 ++ [x]) ++ y :: c2) by (rewrite <- app_assoc; reflexivity).
    rewrite nth_mid by (rewrite app_length; cbn; lia). eexists _, _. split; [reflexivity|]. cbv iota beta.
    exists T1, (c1 ++ [x]), y, c2, T2. split; [rewrite E, <- app_assoc; reflexivity|]. split; [|reflexivity]. do 2 f_equal. rewrite app_length. cbn. lia.
Qed.
Lemma create_ahead t : table_ok t -> zlen (entries t) < U32_MOD -> entries t <> [] -> ahead t (itr_create V t) (entries t).
Proof.
  intros O B NE. unfold itr_create. rewrite (ok_count t O), cast_u32_id by lia.
  assert (zlen (entries t) <> 0) as NZ by (destruct (entries t); [congruence|cbn; lia]). rewrite (proj2 (Z.eqb_neq _ _) NZ).
  destruct (first_chain V 0 (ht_tab t)) as [j|] eqn:F.
  - destruct (first_chain_some _ _ _ F) as (U1 & e & d & U2 & E & E1 & ->). exists U1, [], e, d, U2. split; [exact E|]. split; [reflexivity|].
    unfold entries. rewrite E, concat_app, E1. reflexivity.
  - apply first_chain_none in F. unfold entries in NE. congruence.
Qed.

(** *** Searching, changing and removing with the iterator *)
Lemma place_ok p c : forall i, match place V p i c with
  | Some j => exists c1 e c2, c = c1 ++ e :: c2 /\ p e = true /\ j = (i + len c1)%nat
  | None => forall e, In e c -> p e = false
  end.
Proof.
  induction c as [|x c IH]; intros i; cbn [place]; [intros e []|]. destruct (p x) eqn:E.
  - exists [], x, c. split; [reflexivity|]. split; [exact E|]. cbn. lia.
  - pose proof (IH (S i)) as H. destruct (place V p (S i) c) as [j|].
    + destruct H as (c1 & e & c2 & -> & Pe & ->). exists (x :: c1), e, c2. split; [reflexivity|]. split; [exact Pe|]. cbn [List.length]. lia.
    + intros e [<-|J]; [exact E|exact (H e J)].
Qed.
Lemma itr_search_ok k t : table_ok t ->
  exists r, itr_search V hashfn eqfn k t = Val r /\
    match r with
    | Some i => exists e, itr_entry V t i = Val e /\ he_k e = k /\ In e (entries t)
    | None => ~ In k (map he_k (entries t))
    end.
Proof.
  intros O. unfold itr_search. destruct (chain_of_ok t k O) as (i & c & -> & N & I1 & I2). cbn [cbind]. eexists. split; [reflexivity|].
  pose proof (place_ok (matches V eqfn (eh k) k) c 0) as H. destruct (place V _ 0 c) as [j|]; cbn [option_map].
  - destruct H as (c1 & e & c2 & -> & M & ->). assert (In e (entries t)) as J by (apply I1, in_app_iff; right; left; reflexivity).
    exists e. split; [|split; [apply (matches_key t k e O J), M|exact J]]. unfold itr_entry. cbn [it_pos it_index]. rewrite N, nth_mid by reflexivity. reflexivity.
  - rewrite in_map_iff. intros (e & K & J). pose proof (H e (I2 e J K)) as M. rewrite (proj2 (matches_key t k e O J) K) in M. discriminate.
Qed.
Lemma itr_remove_ok t i e l h rest : table_ok t -> holds t h rest -> ahead t i (e :: l) ->
  exists b j t' h', itr_remove V t i h = MVal (b, j, t', h') /\ table_ok t' /\ holds t' h' rest /\ Permutation (entries t) (e :: entries t') /\
    if b then ahead t' j l else l = [].
Proof.
  intros O (G & Ow) (T1 & c1 & x & c2 & T2 & E & -> & El). injection El as -> ->. unfold itr_remove. cbn [it_pos it_index].
  assert (nth_error (ht_tab t) (len T1) = Some (c1 ++ x :: c2)) as N by (rewrite E; apply nth_mid; reflexivity).
  rewrite N, nth_mid by reflexivity. rewrite skipn_mid. replace (firstn (len c1) (c1 ++ x :: c2)) with c1 by (rewrite firstn_app, Nat.sub_diag, firstn_all; symmetry; apply app_nil_r).
  destruct (take_out t (len T1) c1 c2 x O N) as (tab & -> & PP & Nt & _ & O' & (U1 & U2 & EU & EU' & LU)). cbn [lift mbind].
  assert (U1 = T1 /\ U2 = T2) as (-> & ->).
  { rewrite E in EU. apply app_inj_tail_iff in EU || idtac. assert (firstn (len T1) (T1 ++ (c1 ++ x :: c2) :: T2) = firstn (len T1) (U1 ++ (c1 ++ x :: c2) :: U2)) as F by (rewrite EU; reflexivity).
    rewrite !firstn_app in F. rewrite <- LU in F at 2. rewrite LU, !Nat.sub_diag in F. rewrite firstn_all in F. rewrite <- LU in F at 1. rewrite firstn_all in F. cbn [firstn] in F. rewrite !app_nil_r in F. subst U1.
    apply app_inv_head in EU. injection EU as ->. auto. }
  destruct (free_entry_ok x h _ G (owned_out t tab (cast_u32 (ht_count t - 1)) x rest h PP Ow)) as (h' & F & G' & P' & _).
  set (t' := set_tab V t tab (cast_u32 (ht_count t - 1))) in *. assert (ht_tab t' = T1 ++ (c1 ++ c2) :: T2) as Et by exact EU'.
  destruct c2 as [|y c2].
  - replace (nth_error (c1 ++ []) (len c1)) with (@None hent) by (symmetry; apply nth_error_None; rewrite app_length; cbn; lia).
    pose proof (next_chain_ok t' T1 _ T2 Et) as H. destruct (itr_next_chain V t' (len T1)) as (b, j). rewrite F. cbn [mbind].
    exists b, j, t', h'. split; [reflexivity|]. split; [exact O'|]. split; [split; assumption|]. split; [exact PP|exact H].
  - rewrite nth_mid by reflexivity. rewrite F. cbn [mbind]. eexists true, _, t', h'. split; [reflexivity|]. split; [exact O'|]. split; [split; assumption|].
    split; [exact PP|]. cbv iota beta. exists T1, c1, y, c2, T2. auto.
Qed.
End T.

(** ** Commands *)
From Verif.Spec Require Import CommandSpec.

Section C.
Variable P : Type.
Variable loadlimit : Z -> Z.
Local Notation htab := (htab (info P)).
Local Notation table_ok := (table_ok (info P) hash_key).
Local Notation kvs t := (map (kv (info P)) (entries (info P) t)).

Lemma equal_keys_eq a b : equal_keys a b = true <-> a = b.
Proof. apply str_eqb_eq. Qed.

(** What the table says after the history. *)
Definition agrees (t : htab) (cur : str -> option (P * str)) : Prop :=
  forall n, match cur n with
            | Some x => exists v, In (n, v) (kvs t) /\ is_command v n x
            | None => ~ In n (map fst (kvs t))
            end.
Definition reg (r : registry P) (h : heap) (cur : str -> option (P * str)) : Prop :=
  exists t, r = Some t /\ table_ok t /\ holds (info P) t h [] /\ agrees t cur.

Lemma keys_kv (l : list (hent (info P))) : map fst (map (kv (info P)) l) = map he_k l.
Proof. rewrite map_map. reflexivity. Qed.

Lemma init_ok ok : (cmd_init P loadlimit ok (mkHeap [] 0) = MPanic /\ exists n, ok n = false) \/
  (exists r h, cmd_init P loadlimit ok (mkHeap [] 0) = MVal (r, h) /\ reg r h (fun _ => None)).
Proof.
  unfold cmd_init, hashtable_create. change (2 ^ 30 <? 32) with false. change (find_prime primes 0 32) with (53, 0%nat). cbv iota beta.
  assert (good (mkHeap [] 0)) as G by (split; [constructor|intros i []]).
  destruct (xmalloc_cases ok _ G) as [(-> & F)|(-> & G1)]; cbn [mbind]; [left; split; [reflexivity|eexists; exact F]|].
  destruct (xmalloc_cases ok _ G1) as [(-> & F)|(-> & G2)]; cbn [mbind]; [left; split; [reflexivity|eexists; exact F]|right].
  eexists _, _. split; [reflexivity|]. eexists. split; [reflexivity|].
  assert (entries (info P) (mkHtab 0%nat 1%nat (repeat [] (Z.to_nat 53)) 0 (loadlimit 53) 0%nat) = []) as E by apply concat_empty.
  split; [|split].
  - constructor; cbn [h_calls ht_tab ht_count ht_prime].
    + rewrite repeat_length. lia.
    + apply empty_placed.
    + cbn [h_calls]. rewrite E. constructor.
    + cbn [h_calls]. rewrite E. reflexivity.
    + cbn. lia.
  - split; [exact G2|]. cbn [h_calls h_live] in *. unfold owned. rewrite E. cbn. apply perm_swap.
  - intros n. cbn [h_calls]. rewrite E. intros [].
Qed.

Lemma keys_in t n : In n (map fst (kvs t)) <-> exists v, In (n, v) (kvs t).
Proof.
  rewrite in_map_iff. split; [intros ((a, v) & <- & J); exists v; exact J|intros (v & J); exists (n, v); auto].
Qed.
Lemma key_value_unique t n v v' : table_ok t -> In (n, v) (kvs t) -> In (n, v') (kvs t) -> v = v'.
Proof.
  intros O J J'. destruct (search_ok (info P) hash_key equal_keys equal_keys_eq t n O) as (r & _ & H).
  apply H in J. apply H in J'. congruence.
Qed.

Lemma unregister_ok n r h cur : reg r h cur ->
  exists r' h', cmd_unregister P n r h = MVal (r', h') /\ reg r' h' (fun m => if str_eqb n m then None else cur m).
Proof.
  intros (t & -> & O & H & A). cbn [cmd_unregister].
  destruct (remove_ok (info P) hash_key equal_keys equal_keys_eq n t h [] O H) as (t' & h' & -> & O' & H' & D). cbn [mbind].
  eexists _, _. split; [reflexivity|]. exists t'. split; [reflexivity|]. split; [exact O'|]. split; [exact H'|].
  intros m. specialize (A m). destruct (str_eqb n m) eqn:E.
  - apply str_eqb_eq in E. subst m. destruct D as [(N & -> & ->)|(v & Pm)].
    + rewrite keys_kv. exact N.
    + pose proof (Permutation_NoDup (Permutation_map fst Pm)) as ND. rewrite keys_kv in ND. specialize (ND (ok_keys _ _ t O)). cbn [map fst] in ND. inversion ND. assumption.
  - apply str_eqb_neq in E. destruct D as [(N & -> & ->)|(v & Pm)]; [exact A|]. destruct (cur m) as [x|].
    + destruct A as (w & J & I). exists w. split; [|exact I]. apply (Permutation_in _ Pm) in J. destruct J as [J|J]; [congruence|exact J].
    + intros J. apply A. apply keys_in in J. destruct J as (w & J). apply keys_in. exists w. apply (Permutation_in _ (Permutation_sym Pm)). right. exact J.
Qed.

Lemma store_zeroed s n : no_nul s -> (len s < n)%nat -> exists b, store (zeroed n) 0 (bytes s) = Val b /\ cstr b = Val s.
Proof.
  intros N L. unfold store, zeroed, bytes. rewrite map_length, repeat_length. rewrite (proj2 (Nat.leb_le _ _)) by lia. eexists. split; [reflexivity|].
  cbn [firstn app plus]. replace n with (len s + S (n - len s - 1))%nat by lia. rewrite repeat_app, skipn_app, repeat_length, Nat.sub_diag.
  rewrite skipn_all2 by (rewrite repeat_length; lia). cbn [repeat skipn app]. generalize (repeat (Some NUL) (n - len s - 1)). intros z. clear L. induction s as [|c s IH]; cbn [map app cstr].
  - reflexivity.
  - assert (aeqb c NUL = false) as -> by (destruct (aeqb c NUL) eqn:E; [apply aeqb_eq in E; subst c; destruct N; left; reflexivity|reflexivity]).
    rewrite IH by (intros J; apply N; right; exact J). reflexivity.
Qed.

Lemma info_ok n r h cur : reg r h cur ->
  exists i, cmd_info P n r = Val i /\
    match cur n with Some x => exists v, i = Some v /\ is_command v n x | None => i = None end.
Proof.
  intros (t & -> & O & H & A). cbn [cmd_info]. destruct (search_ok (info P) hash_key equal_keys equal_keys_eq t n O) as (i & -> & I).
  exists i. split; [reflexivity|]. specialize (A n). destruct (cur n) as [x|].
  - destruct A as (v & J & C). exists v. split; [apply I, J|exact C].
  - destruct i as [v|]; [|reflexivity]. destruct A. apply keys_in. exists v. apply I. reflexivity.
Qed.

Lemma register_ok ok n p d r h cur : fits (Register n p d) -> reg r h cur ->
  (cmd_register P loadlimit ok n p d r h = MPanic /\ exists k, ok k = false) \/
  (exists r' h', cmd_register P loadlimit ok n p d r h = MVal (r', h') /\ reg r' h' (fun m => if str_eqb n m then Some (p, d) else cur m)).
Proof.
  intros (N1 & L1 & N2 & L2) R. unfold cmd_register. unfold NAME_LEN, DESCRIPTION_LEN.
  rewrite (proj2 (Nat.ltb_lt _ _) L1), (proj2 (Nat.ltb_lt _ _) L2). cbn [andb negb].
  destruct (info_ok n r h cur R) as (i & -> & I). cbn [lift mbind].
  assert (exists r1 h1, (match i with Some _ => cmd_unregister P n r h | None => MVal (r, h) end) = MVal (r1, h1) /\
    reg r1 h1 (fun m => if str_eqb n m then None else cur m)) as (r1 & h1 & -> & R1).
  { destruct i as [v|].
    - exact (unregister_ok n r h cur R).
    - exists r, h. split; [reflexivity|]. destruct R as (t & E & O & H & A). exists t. split; [exact E|]. split; [exact O|]. split; [exact H|].
      intros m. destruct (str_eqb n m) eqn:Em; [|exact (A m)]. apply str_eqb_eq in Em. subst m. specialize (A n). destruct (cur n) as [x|]; [|exact A].
      destruct I as (v & V & _). discriminate V. }
  cbn [mbind]. destruct R1 as (t & -> & O & (G & Ow) & A). rewrite app_nil_r in Ow.
  destruct (xmalloc_cases ok _ G) as [(-> & F)|(-> & G1)]; cbn [mbind]; [left; split; [reflexivity|eexists; exact F]|].
  destruct (store_zeroed n 100 N1 L1) as (bn & -> & Cn). cbn [lift mbind].
  destruct (store_zeroed d 256 N2 L2) as (bd & -> & Cd). cbn [lift mbind].
  destruct (xmalloc_cases ok _ G1) as [(-> & F)|(-> & G2)]; cbn [mbind]; [left; split; [reflexivity|eexists; exact F]|].
  destruct (store_zeroed n (len n + 1) N1 ltac:(lia)) as (bk & -> & Ck). cbn [lift mbind]. rewrite Ck. cbn [lift mbind].
  assert (~ In n (map he_k (entries (info P) t))) as NI by (specialize (A n); cbv beta in A; rewrite str_eqb_refl, keys_kv in A; exact A).
  destruct (insert_ok (info P) loadlimit hash_key ok n (h_calls (mkHeap (h_calls h1 :: h_live h1) (S (h_calls h1)))) (mkInfo bn bd p) (h_calls h1) t
    _ [] O G2) as [(-> & F)|(t' & h' & -> & O' & Pm & H')]; [|exact NI| |].
  - cbn [h_live h_calls]. rewrite app_nil_r. do 2 constructor. exact Ow.
  - left. split; [reflexivity|exact F].
  - right. cbn [mbind]. eexists _, _. split; [reflexivity|]. exists t'. split; [reflexivity|]. split; [exact O'|]. split; [exact H'|].
    intros m. specialize (A m). cbv beta in A. destruct (str_eqb n m) eqn:E.
    + apply str_eqb_eq in E. subst m. exists (mkInfo bn bd p). split; [apply (Permutation_in _ (Permutation_sym Pm)); left; reflexivity|].
      split; [exact Cn|]. split; [reflexivity|exact Cd].
    + apply str_eqb_neq in E. destruct (cur m) as [x|].
      * destruct A as (w & J & C). exists w. split; [apply (Permutation_in _ (Permutation_sym Pm)); right; exact J|exact C].
      * intros J. apply (Permutation_in _ (Permutation_map fst Pm)) in J. cbn [map fst] in J. destruct J as [J|J]; [congruence|exact (A J)].
Qed.

Lemma reg_ext r h c c' : (forall n, c n = c' n) -> reg r h c -> reg r h c'.
Proof. intros E (t & R & O & H & A). exists t. split; [exact R|]. split; [exact O|]. split; [exact H|]. intros n. rewrite <- E. exact (A n). Qed.

Definition step (cur : str -> option (P * str)) (q : request P) (name : str) : option (P * str) :=
  match q with
  | Register n p d => if str_eqb n name then Some (p, d) else cur name
  | Unregister n => if str_eqb n name then None else cur name
  end.
Lemma current_from qs : forall cur n,
  fold_left (fun c q => match q with Register m p d => if str_eqb m n then Some (p, d) else c | Unregister m => if str_eqb m n then None else c end) qs (cur n)
  = fold_left step qs cur n.
Proof.
  induction qs as [|q qs IH]; intros cur n; [reflexivity|]. cbn [fold_left]. rewrite <- IH. destruct q; reflexivity.
Qed.

Lemma serve_ok ok qs : forall r h cur, Forall fits qs -> reg r h cur ->
  (serve loadlimit ok qs r h = MPanic /\ exists k, ok k = false) \/
  (exists r' h', serve loadlimit ok qs r h = MVal (r', h') /\ reg r' h' (fold_left step qs cur)).
Proof.
  induction qs as [|[n p d|n] qs IH]; intros r h cur F R; cbn [serve].
  - right. exists r, h. auto.
  - inversion F; subst. destruct (register_ok ok n p d r h cur H1 R) as [(-> & K)|(r1 & h1 & -> & R1)]; cbn [mbind]; [left; auto|].
    destruct (IH r1 h1 _ H2 R1) as [K|(r2 & h2 & E & R2)]; [left; exact K|right]. exists r2, h2. auto.
  - inversion F; subst. destruct (unregister_ok n r h cur R) as (r1 & h1 & -> & R1). cbn [mbind].
    destruct (IH r1 h1 _ H2 R1) as [K|(r2 & h2 & E & R2)]; [left; exact K|right]. exists r2, h2. auto.
Qed.
Lemma served_ok ok qs : Forall fits qs ->
  (served loadlimit ok qs = MPanic /\ exists k, ok k = false) \/
  (exists r h, served loadlimit ok qs = MVal (r, h) /\ reg r h (current qs)).
Proof.
  intros F. unfold served. destruct (init_ok ok) as [(-> & K)|(r & h & -> & R)]; cbn [mbind]; [left; auto|].
  destruct (serve_ok ok qs r h _ F R) as [K|(r2 & h2 & E & R2)]; [left; exact K|right]. exists r2, h2. split; [exact E|].
  apply (reg_ext _ _ (fold_left step qs (fun _ => None))); [|exact R2]. intros n. symmetry. unfold current. apply (current_from qs (fun _ => None)).
Qed.

(** At most as many commands as requests. *)
Lemma current_names qs n : current (P := P) qs n <> None -> In n (map (fun q => match q with Register m _ _ => m | Unregister m => m end) qs).
Proof.
  unfold current. assert (forall (c : option (P * str)), fold_left (fun cur (q : request P) => match q with Register m p d => if str_eqb m n then Some (p, d) else cur | Unregister m => if str_eqb m n then None else cur end) qs c <> None ->
    c <> None \/ In n (map (fun q => match q with Register m _ _ => m | Unregister m => m end) qs)) as H.
  { induction qs as [|q qs IH]; intros c H; [left; exact H|]. cbn [fold_left map] in *. apply IH in H. destruct H as [H|H]; [|right; right; exact H].
    destruct q as [m p d|m]; destruct (str_eqb m n) eqn:E; try (apply str_eqb_eq in E; right; left; exact E); left; exact H. }
  intros H1. destruct (H None H1) as [D|J]; [destruct (D eq_refl)|exact J].
Qed.

Lemma walk_ok t : forall l i fuel, l <> [] -> ahead (info P) t i l -> (len l <= fuel)%nat -> walk P fuel t i = Some (Val (map (kv (info P)) l)).
Proof.
  induction l as [|e l IH]; intros i fuel NE A L; [congruence|]. destruct fuel as [|fuel]; [cbn in L; lia|]. cbn [walk]. unfold itr_key, itr_value.
  rewrite (ahead_entry (info P) t i e l A). cbn [cbind]. destruct (ahead_advance (info P) t i e l A) as (b & j & -> & H). destruct b.
  - destruct l as [|x l].
    + destruct H as (T1 & c1 & y & c2 & T2 & _ & _ & E). discriminate E.
    + rewrite (IH j fuel); [reflexivity|discriminate|exact H|cbn [List.length] in *; lia].
  - subst l. reflexivity.
Qed.

Lemma list_ok r h qs : reg r h (current qs) -> zlen qs < U32_MOD ->
  exists names, NoDup names /\ (forall n, In n names <-> current qs n <> None) /\ cmd_count P r = Val (zlen names) /\
    exists cs, Permutation (map fst cs) names /\ (forall fuel, (len names < fuel)%nat -> cmd_list P fuel r = Some (Val cs)) /\
      forall n v, In (n, v) cs -> exists x, current qs n = Some x /\ is_command v n x.
Proof.
  intros (t & -> & O & H & A) B. exists (map fst (kvs t)).
  assert (forall n, In n (map fst (kvs t)) <-> current qs n <> None) as I.
  { intros n. specialize (A n). destruct (current qs n) as [x|].
    - destruct A as (v & J & _). split; [discriminate|]. intros _. apply keys_in. exists v. exact J.
    - split; [intros J; destruct (A J)|intros D; destruct (D eq_refl)]. }
  assert (NoDup (map fst (kvs t))) as N by (rewrite keys_kv; exact (ok_keys _ _ t O)).
  assert (len (map fst (kvs t)) <= len qs)%nat as L.
  { rewrite <- (map_length (fun q : request P => match q with Register m _ _ => m | Unregister m => m end) qs). apply NoDup_incl_length; [exact N|].
    intros n J. apply current_names, I, J. }
  assert (len (entries (info P) t) = len (map fst (kvs t))) as EL by (rewrite !map_length; reflexivity).
  assert (hashtable_count (info P) t = zlen (map fst (kvs t))) as EC.
  { unfold hashtable_count. rewrite (ok_count _ _ t O), cast_u32_id by lia. rewrite EL. reflexivity. }
  split; [exact N|]. split; [exact I|]. split; [cbn [cmd_count]; rewrite EC; reflexivity|].
  exists (kvs t). split; [reflexivity|]. split.
  - intros fuel Fu. cbn [cmd_list]. rewrite EC. rewrite <- EL in *. destruct (entries (info P) t) as [|e l] eqn:E; [reflexivity|].
    rewrite (proj2 (Z.eqb_neq _ _)) by (cbn [List.length]; lia). rewrite <- E in *. apply walk_ok; [rewrite E; discriminate| |lia].
    apply (create_ahead (info P) hash_key); [exact O|lia|rewrite E; discriminate].
  - intros n v J. specialize (A n). assert (current qs n <> None) as C by (apply I, keys_in; exists v; exact J). destruct (current qs n) as [x|]; [|congruence].
    destruct A as (w & J' & S). exists x. split; [reflexivity|]. rewrite (key_value_unique t n v w O J J'). exact S.
Qed.

Lemma uninit_ok r h cur : reg r h cur -> exists h', cmd_uninit P r h = MVal h' /\ h_live h' = [].
Proof.
  intros (t & -> & O & H & A). cbn [cmd_uninit]. destruct (destroy_ok (info P) t h [] H) as (h' & -> & _ & Pm). exists h'. split; [reflexivity|].
  apply Permutation_sym, Permutation_nil in Pm. exact Pm.
Qed.
Lemma found_ok n r h cur : reg r h cur ->
  exists t i, r = Some t /\ itr_search (info P) hash_key equal_keys n t = Val i /\
    match cur n with
    | Some x => exists j v, i = Some j /\ itr_key (info P) t j = Val n /\ itr_value (info P) t j = Val v /\ is_command v n x
    | None => i = None
    end.
Proof.
  intros (t & -> & O & H & A). destruct (itr_search_ok (info P) hash_key equal_keys equal_keys_eq n t O) as (i & E & I).
  exists t, i. split; [reflexivity|]. split; [exact E|]. specialize (A n). destruct (cur n) as [x|]; destruct i as [j|].
  - destruct I as (e & En & K & J). destruct A as (v & Jv & C). exists j, (he_v e). split; [reflexivity|]. unfold itr_key, itr_value. rewrite En. cbn [cbind].
    split; [rewrite K; reflexivity|]. split; [reflexivity|]. replace (he_v e) with v; [exact C|]. apply (key_value_unique t n); [exact O|exact Jv|].
    apply in_map_iff. exists e. split; [unfold kv; rewrite K; reflexivity|exact J].
  - destruct I. rewrite <- keys_kv. apply keys_in. destruct A as (v & J & _). exists v. exact J.
  - destruct I as (e & En & K & J). destruct A. rewrite keys_kv, <- K. apply in_map, J.
  - reflexivity.
Qed.

Lemma sweep_ok keep : forall l done t i h fuel, l <> [] -> table_ok t -> holds (info P) t h [] -> ahead (info P) t i l -> (len l <= fuel)%nat ->
  Permutation (entries (info P) t) (done ++ l) ->
  exists t' h', sweep keep fuel t i h = Some (MVal (Some t', h')) /\ table_ok t' /\ holds (info P) t' h' [] /\
    Permutation (entries (info P) t') (done ++ filter (fun e => keep (he_k e)) l).
Proof.
  induction l as [|e l IH]; intros done t i h fuel NE O H A L PP; [congruence|]. destruct fuel as [|fuel]; [cbn in L; lia|]. cbn [List.length] in L.
  cbn [sweep]. unfold itr_key. rewrite (ahead_entry (info P) t i e l A). cbn [cbind filter]. destruct (keep (he_k e)) eqn:K.
  - destruct (ahead_advance (info P) t i e l A) as (b & j & -> & B). destruct b.
    + destruct l as [|x l]; [destruct B as (T1 & c1 & y & c2 & T2 & _ & _ & E); discriminate E|].
      destruct (IH (done ++ [e]) t j h fuel) as (t' & h' & E & O' & H' & P'); [discriminate|exact O|exact H|exact B|lia|rewrite <- app_assoc; exact PP|].
      exists t', h'. split; [exact E|]. split; [exact O'|]. split; [exact H'|]. rewrite P', <- app_assoc. reflexivity.
    + subst l. exists t, h. split; [reflexivity|]. split; [exact O|]. split; [exact H|]. exact PP.
  - destruct (itr_remove_ok (info P) hash_key t i e l h [] O H A) as (b & j & t1 & h1 & -> & O1 & H1 & P1 & B).
    assert (Permutation (entries (info P) t1) (done ++ l)) as Q.
    { apply (Permutation_cons_inv (a := e)). rewrite <- P1, PP. symmetry. apply Permutation_middle. }
    destruct b.
    + destruct l as [|x l]; [destruct B as (T1 & c1 & y & c2 & T2 & _ & _ & E); discriminate E|].
      exact (IH done t1 j h1 fuel ltac:(discriminate) O1 H1 B ltac:(lia) Q).
    + subst l. exists t1, h1. split; [reflexivity|]. split; [exact O1|]. split; [exact H1|]. exact Q.
Qed.
Lemma swept_ok keep r h qs : reg r h (current qs) -> zlen qs < U32_MOD ->
  exists r' h', (forall fuel, (len qs < fuel)%nat -> swept keep fuel r h = Some (MVal (r', h'))) /\
    reg r' h' (fun n => if keep n then current qs n else None).
Proof.
  intros R B. destruct (list_ok r h qs R B) as (names & N & I & C & _). destruct R as (t & -> & O & H & A).
  assert (len names = len (entries (info P) t)) as EL.
  { rewrite <- (map_length he_k (entries (info P) t)), <- keys_kv. apply Permutation_length, NoDup_Permutation; [exact N|rewrite keys_kv; exact (ok_keys _ _ t O)|].
    intros n. rewrite I. specialize (A n). destruct (current qs n) as [x|].
    - destruct A as (v & J & _). split; [|discriminate]. intros _. apply keys_in. exists v. exact J.
    - split; [intros D; destruct (D eq_refl)|intros J; destruct (A J)]. }
  assert (len names <= len qs)%nat as L.
  { rewrite <- (map_length (fun q : request P => match q with Register m _ _ => m | Unregister m => m end) qs). apply NoDup_incl_length; [exact N|].
    intros n J. apply current_names, I, J. }
  assert (forall t' : htab, Permutation (entries (info P) t') (filter (fun e => keep (he_k e)) (entries (info P) t)) -> agrees t' (fun n => if keep n then current qs n else None)) as AG.
  { intros t' Pt n. specialize (A n).
    assert (forall v, In (n, v) (kvs t') <-> In (n, v) (kvs t) /\ keep n = true) as X.
    { intros v. rewrite !in_map_iff. split.
      - intros (e & E & J). apply (Permutation_in _ Pt), filter_In in J. destruct J as (J & K). unfold kv in E. injection E as E1 E2. rewrite E1 in K. split; [|exact K].
        exists e. split; [unfold kv; congruence|exact J].
      - intros ((e & E & J) & K). exists e. split; [exact E|]. apply (Permutation_in _ (Permutation_sym Pt)), filter_In. split; [exact J|]. unfold kv in E. injection E as E1 E2. rewrite E1. exact K. }
    destruct (keep n) eqn:K; [destruct (current qs n) as [x|]|].
    - destruct A as (v & J & S). exists v. split; [apply X; auto|exact S].
    - intros J. apply A. apply keys_in in J. destruct J as (v & J). apply X in J. apply keys_in. exists v. apply J.
    - intros J. apply keys_in in J. destruct J as (v & J). apply X in J. destruct J as (_ & D). discriminate D. }
  cbn [cmd_count] in C. injection C as C. unfold swept. rewrite C, EL. destruct (entries (info P) t) as [|e l] eqn:E.
  - exists (Some t), h. split; [reflexivity|]. exists t. split; [reflexivity|]. split; [exact O|]. split; [exact H|]. apply AG. rewrite E. reflexivity.
  - rewrite (proj2 (Z.eqb_neq _ _)) by (cbn [List.length]; lia). rewrite <- E in *.
    assert (forall fuel, (len qs < fuel)%nat -> exists t' h', sweep keep fuel t (itr_create (info P) t) h = Some (MVal (Some t', h')) /\ table_ok t' /\ holds (info P) t' h' [] /\
      Permutation (entries (info P) t') (filter (fun e => keep (he_k e)) (entries (info P) t))) as W.
    { intros fuel Fu. apply (sweep_ok keep (entries (info P) t) [] t _ h fuel); [rewrite E; discriminate|exact O|exact H| |lia|reflexivity].
      apply (create_ahead (info P) hash_key); [exact O|lia|rewrite E; discriminate]. }
    assert (forall f g t0 i0 h0 x, (f <= g)%nat -> sweep (P := P) keep f t0 i0 h0 = Some x -> sweep keep g t0 i0 h0 = Some x) as Mono.
    { clear. induction f as [|f IH]; intros g t0 i0 h0 x L S; [discriminate S|]. destruct g as [|g]; [lia|]. cbn [sweep] in *.
      destruct (itr_key (info P) t0 i0) as [k|]; [|exact S]. destruct (keep k).
      - destruct (itr_advance (info P) t0 i0) as [([|], j)|]; try exact S. apply IH; [lia|exact S].
      - destruct (itr_remove (info P) t0 i0 h0) as [((([|], j), t1), h1)| |]; try exact S. apply IH; [lia|exact S]. }
    destruct (W (S (len qs)) ltac:(lia)) as (t' & h' & E' & O' & H' & P'). exists (Some t'), h'. split.
    + intros fuel Fu. exact (Mono (S (len qs)) fuel t _ h _ ltac:(lia) E').
    + exists t'. split; [reflexivity|]. split; [exact O'|]. split; [exact H'|]. exact (AG t' P').
Qed.
End C.
