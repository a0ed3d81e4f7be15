From Coq Require Import ZArith Bool List Ascii String Arith Lia Permutation.
From Verif.Base Require Import CInt CStr CMem.
From Verif.Model Require Import ArgMemory HashTable HashItr.
From Verif.Spec Require Import HashSpec HashItrSpec.
From Verif.Proofs Require Import ArgMemoryProofs HashTableProofs HashAny HashClaims.
Import ListNotations.
Open Scope list_scope.
Open Scope Z_scope.

Local Notation len := List.length.
Local Notation zlen l := (Z.of_nat (List.length l)).

Lemma itrs_new_ok V ok (t : htab V) : forall n h, good h ->
  (itrs_new ok n t h = MPanic /\ exists m, ok m = false) \/
  (exists l h', itrs_new ok n t h = MVal (l, h') /\ good h' /\ len l = n /\ Forall (fun i => snd i = itr_create V t) l /\
     Permutation (h_live h') (map fst l ++ h_live h)).
Proof.
  induction n as [|n IH]; intros h G; cbn [itrs_new].
  - right. exists [], h. split; [reflexivity|]. split; [exact G|]. split; [reflexivity|]. split; [constructor|reflexivity].
  - unfold itr_new. destruct (xmalloc_cases ok h G) as [(-> & F)|(-> & G1)]; cbn [mbind]; [left; split; [reflexivity|eexists; exact F]|].
    destruct (IH _ G1) as [(-> & F)|(l & h' & -> & G2 & L & A & Pm)]; cbn [mbind]; [left; auto|right].
    eexists _, _. split; [reflexivity|]. split; [exact G2|]. split; [cbn; lia|]. split; [constructor; [reflexivity|exact A]|].
    rewrite Pm. cbn [map fst h_live app]. symmetry. apply Permutation_middle.
Qed.
Lemma itrs_destroy_ok : forall l h rest, good h -> Permutation (h_live h) (map fst l ++ rest) ->
  exists h', itrs_destroy l h = MVal h' /\ good h' /\ Permutation (h_live h') rest.
Proof.
  induction l as [|i l IH]; intros h rest G Pm; cbn [itrs_destroy].
  - exists h. auto.
  - unfold itr_destroy. destruct (xfree_perm _ _ h G Pm) as (h1 & -> & G1 & P1 & _). cbn [mbind]. exact (IH h1 rest G1 P1).
Qed.

Theorem c94_iterators : forall V hashfn eqfn loadlimit ok minsize (qs : list (ask V)) t h n,
  compatible hashfn eqfn -> minsize <= 2 ^ 30 -> zlen qs < 4294967296 ->
  asked hashfn eqfn loadlimit ok minsize qs = MVal (t, h) ->
  (itrs_new ok n t h = MPanic /\ exists m, ok m = false) \/
  exists its h1 b l, itrs_new ok n t h = MVal (its, h1) /\ len its = n /\ all_done eqfn qs [] b /\ Permutation l b /\
    (b <> [] -> forall i fuel, In i its -> (len b <= fuel)%nat -> visit fuel t (snd i) = Some (Val l)) /\
    forall order, Permutation order its ->
      (exists h2 h3, itrs_destroy order h1 = MVal h2 /\ hashtable_destroy V t h2 = MVal h3 /\ h_live h3 = []) /\
      (exists h2 h3, hashtable_destroy V t h1 = MVal h2 /\ itrs_destroy order h2 = MVal h3 /\ h_live h3 = []).
Proof.
  intros V hashfn eqfn loadlimit ok minsize qs t h n C B Q A.
  destruct (asked_ok V hashfn eqfn loadlimit ok minsize qs C B) as [(X & _)|(t' & h' & E & O & (G & Ow) & D)]; [congruence|].
  assert (t' = t /\ h' = h) as (-> & ->) by (split; congruence).
  destruct (itrs_new_ok V ok t n h G) as [X|(its & h1 & N & G1 & L & Al & Pm)]; [left; exact X|right].
  exists its, h1, (map (kv V) (entries V t)), (map (kv V) (entries V t)). split; [exact N|]. split; [exact L|]. split; [exact D|]. split; [reflexivity|]. split.
  - intros NE i fuel J Fu. rewrite Forall_forall in Al. rewrite (Al i J). rewrite map_length in Fu.
    apply done_length in D. rewrite map_length in D. cbn [List.length] in D.
    assert (entries V t <> []) as NE' by (intros X; apply NE; rewrite X; reflexivity).
    apply (visit_ok V); [exact NE'| |exact Fu]. apply (tok_ahead V hashfn); [exact O|unfold U32_MOD; lia|exact NE'].
  - intros order Po.
    assert (Permutation (h_live h1) (map fst order ++ owned V t)) as P1.
    { rewrite Pm, (Permutation_map fst Po). apply Permutation_app_head. rewrite Ow, app_nil_r. reflexivity. }
    split.
    + destruct (itrs_destroy_ok order h1 _ G1 P1) as (h2 & E2 & G2 & P2).
      destruct (destroy_ok V t h2 []) as (h3 & E3 & _ & P3); [split; [exact G2|rewrite app_nil_r; exact P2]|].
      exists h2, h3. split; [exact E2|]. split; [exact E3|]. apply Permutation_sym, Permutation_nil in P3. exact P3.
    + destruct (destroy_ok V t h1 (map fst order)) as (h2 & E2 & G2 & P2); [split; [exact G1|rewrite P1; apply Permutation_app_comm]|].
      destruct (itrs_destroy_ok order h2 [] G2) as (h3 & E3 & _ & P3); [rewrite app_nil_r; exact P2|].
      exists h2, h3. split; [exact E2|]. split; [exact E3|]. apply Permutation_sym, Permutation_nil in P3. exact P3.
Qed.

Lemma sample_iterators : exists t h its h1, asked hash_key equal_keys real_limit yes 32 sample_asks = MVal (t, h) /\
  itrs_new yes 2 t h = MVal (its, h1) /\ len its = 2%nat /\
  Forall (fun i => visit 1 t (snd i) = Some (Val [(lit "a", 3%nat)])) its /\ len (h_live h1) = (len (h_live h) + 2)%nat.
Proof.
  destruct (asked hash_key equal_keys real_limit yes 32 sample_asks) as [(t, h)| |] eqn:E; vm_compute in E; [|discriminate E|discriminate E].
  injection E as <- <-. eexists _, _, _, _. split; [reflexivity|]. split; [vm_compute; reflexivity|]. split; [reflexivity|].
  split; [|reflexivity]. repeat constructor.
Qed.
