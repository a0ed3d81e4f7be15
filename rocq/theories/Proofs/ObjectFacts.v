(** The facts about option objects, as they are stated. *)
From Coq Require Import ZArith Bool List Lia ZifyBool.
From Verif.Base Require Import CInt.
From Verif.Model Require Import ArgObject.
From Verif.Spec Require Import ObjectSpec.
From Verif.Proofs Require Import ObjectMem ObjectProofs ObjectUses ObjectMake.
Import ListNotations.
Open Scope Z_scope.

Lemma object_fact K h base junk empty mincount maxcount size :
  K <> KEnd -> good_counts K mincount maxcount ->
  nbytes K (real_max K mincount maxcount) = Val size -> allocated base size ->
  exists b o, make K h base junk empty mincount maxcount = Val b /\ o_count o = 0 /\
    (forall j i, (j < arrays K)%nat -> 0 <= i < real_max K mincount maxcount ->
       (K = KStr \/ K = KRex \/ K = KFile -> o_entry o j i = le_bytes 8 empty) /\
       (K = KDate -> o_entry o j i = repeat 0 56)) /\
    forall us, Forall (use_fits K) us ->
    let (codes, o') := all_used (match K with KLit => false | _ => true end) (real_max K mincount maxcount) o us in
    exists b', uses K b us = Val (codes, b') /\
      count_of K b' = Val (o_count o') /\
      check K b' = Val (if o_count o' <? mincount then ARG_ERR_MINCOUNT else 0) /\
      (forall j i, (j < arrays K)%nat -> 0 <= i < real_max K mincount maxcount -> entry_of K b' j i = Val (o_entry o' j i)) /\
      (forall x, In x [8; 16; 24; 32; 56; 64; 72; 80] -> 0 <= h x < U64_MOD -> load_ptr b' x = Val (h x)) /\
      0 <= o_count o' <= real_max K mincount maxcount.
Proof.
  intros NE G Hs Ha. destruct (make_ok K h base junk empty mincount maxcount size NE G Hs Ha) as (b & o & E & R & (C0 & F) & P & -> & Hm).
  set (m := real_max K mincount maxcount) in *. exists b, o. split; [exact E|]. split; [exact C0|]. split.
  { intros j i Hj Hi. destruct (F j i Hj Hi) as [F1 F2]. split; [|exact F2]. intros [->|[->| ->]]; apply F1; reflexivity. }
  intros us Fu. change (match K with KLit => false | _ => true end) with (has_values K).
  assert (C : 0 <= o_count o <= m) by (rewrite C0; destruct Hm; lia).
  assert (Hn : INT_MIN <= mincount <= INT_MAX) by apply G.
  destruct (rep_uses K base m mincount Hm Ha us b o R C Fu) as (b' & E' & R' & C' & X').
  destruct (all_used (has_values K) m o us) as [codes o']. cbn [fst snd] in *.
  exists b'. split; [exact E'|]. split; [apply (rep_count K base m mincount Hm Ha b' o' R' (count_int K m Hm o' C'))|].
  split; [apply (rep_check K base m mincount Hm Hn Ha b' o' R' C')|].
  split; [intros j i Hj Hi; now apply (rep_entry K base m mincount Hm Ha b' o' j i R')|]. split; [|exact C'].
  intros x Hx Hh. apply load_ptr_ok; [apply (b16 K base m mincount Ha b' o' R')| | | |apply (pointers_header _ _ _ P X' x Hx)|exact Hh].
  - cbn in Hx. repeat (destruct Hx as [<-|Hx]; [reflexivity|]). contradiction.
  - cbn in Hx. lia.
  - rewrite (r_size _ _ _ _ _ _ R'). pose proof (proj1 (total_bounds K m (proj1 (proj1 Hm)))). cbn in Hx. lia.
Qed.

Lemma object_places K h base junk empty mincount maxcount size :
  K <> KEnd -> good_counts K mincount maxcount ->
  nbytes K (places K mincount maxcount) = Val size -> allocated base size ->
  exists b o, make K h base junk empty mincount maxcount = Val b /\ o_count o = 0 /\
    (forall j i, (j < arrays K)%nat -> 0 <= i < places K mincount maxcount ->
       (K = KStr \/ K = KRex \/ K = KFile -> o_entry o j i = le_bytes 8 empty) /\
       (K = KDate -> o_entry o j i = repeat 0 56)) /\
    forall us, Forall (use_fits K) us ->
    let (codes, o') := all_used (match K with KLit => false | _ => true end) (places K mincount maxcount) o us in
    exists b', uses K b us = Val (codes, b') /\
      count_of K b' = Val (o_count o') /\
      check K b' = Val (if o_count o' <? mincount then ARG_ERR_MINCOUNT else 0) /\
      (forall j i, (j < arrays K)%nat -> 0 <= i < places K mincount maxcount -> entry_of K b' j i = Val (o_entry o' j i)) /\
      (forall x, In x [8; 16; 24; 32; 56; 64; 72; 80] -> 0 <= h x < U64_MOD -> load_ptr b' x = Val (h x)) /\
      0 <= o_count o' <= places K mincount maxcount.
Proof. rewrite <- real_max_places. apply object_fact. Qed.

Lemma errors_fact h base junk empty maxcount size :
  good_counts KEnd 1 maxcount -> 1 <= maxcount -> nbytes KEnd maxcount = Val size -> allocated base size ->
  exists b b0, make KEnd h base junk empty 1 maxcount = Val b /\ reset KEnd b = Val b0 /\
    forall es, exists b', registers b0 es = Val b' /\
      count_of KEnd b' = Val (Z.of_nat (length (errors_kept maxcount base es))) /\
      (forall i parent error argval, nth_error (errors_kept maxcount base es) i = Some (parent, error, argval) ->
         entry_of KEnd b' 0 (Z.of_nat i) = Val (le_bytes 4 error) /\
         entry_of KEnd b' 1 (Z.of_nat i) = Val (le_bytes 8 parent) /\
         entry_of KEnd b' 2 (Z.of_nat i) = Val (le_bytes 8 argval)) /\
      (forall x, In x [8; 16; 24; 32; 56; 64; 72; 80] -> 0 <= h x < U64_MOD -> load_ptr b' x = Val (h x)).
Proof.
  intros G H1 Hs Ha. destruct (end_ok h base junk empty maxcount size G Hs Ha) as (b & b0 & o & E & E0 & R & C0 & P & -> & Hm).
  exists b, b0. split; [exact E|]. split; [exact E0|]. intro es.
  assert (L0 : listed o []) by (split; [exact C0|intros [|i] p e a Hi; discriminate]).
  destruct (rep_registers base maxcount Hm H1 Ha es b0 o [] R L0 ltac:(cbn; lia)) as (b' & o' & E' & R' & L' & M' & X').
  rewrite (register_kept _ _ _ H1) in *. destruct L' as [LC LE].
  exists b'. split; [exact E'|]. split; [|split].
  - rewrite <- LC. apply (rep_count KEnd base maxcount 1 Hm Ha b' o' R').
    apply (count_int KEnd maxcount Hm). rewrite LC. lia.
  - intros i p e a Hi. destruct (LE i p e a Hi) as (A1 & A2 & A3).
    assert (Li : (i < length (errors_kept maxcount base es))%nat) by (apply nth_error_Some; congruence).
    rewrite <- A1, <- A2, <- A3. split; [|split]; apply (rep_entry KEnd base maxcount 1 Hm Ha b' o' _ _ R'); cbn [arrays]; lia.
  - intros x Hx Hh. apply load_ptr_ok; [apply (b16 KEnd base maxcount 1 Ha b' o' R')| | | |apply (pointers_header _ _ _ P X' x Hx)|exact Hh].
    + cbn in Hx. repeat (destruct Hx as [<-|Hx]; [reflexivity|]). contradiction.
    + cbn in Hx. lia.
    + rewrite (r_size _ _ _ _ _ _ R'). pose proof (proj1 (total_bounds KEnd maxcount (proj1 (proj1 Hm)))). cbn in Hx. lia.
Qed.

(** A negative maximum. *)
Lemma negative_fact K h base junk empty : K = KInt \/ K = KStr \/ K = KFile \/ K = KDate -> make K h base junk empty (-1) (-1) = UB.
Proof.
  intro HK.
  assert (Hb : forall b l1 o al bs l2 size, b_size b = size -> o + len bs > size -> store_all b (l1 ++ (o, al, bs) :: l2) = UB).
  { intros b l1 o al bs l2 size Hs Hg. apply store_all_bad. unfold access. destruct (puts_base b l1) as [_ ->]. rewrite Hs.
    replace (o + len bs <=? size) with false by lia. now rewrite andb_false_r. }
  destruct HK as [->|[->|[->| ->]]]; unfold make; cbn [real_max real_min Z.ltb Z.compare Pos.compare Pos.compare_cont CompOpp].
  - change (nbytes KInt (-1)) with (Val 108). cbn [cbind].
    rewrite (Hb _ (hdr_fields h base (-1) (-1)) 104 8 (le_bytes 8 (start KInt base (-1) 0)) [(96, 4, le_bytes 4 0)] 108); [reflexivity|reflexivity|rewrite len_le_bytes; lia].
  - change (nbytes KStr (-1)) with (Val 104). cbn [cbind].
    rewrite (Hb _ (hdr_fields h base (-1) (-1)) 104 8 (le_bytes 8 (start KStr base (-1) 0)) [(96, 4, le_bytes 4 0)] 104); [reflexivity|reflexivity|rewrite len_le_bytes; lia].
  - change (nbytes KFile (-1)) with (Val 104). cbn [cbind].
    rewrite (Hb _ (hdr_fields h base (-1) (-1)) 104 8 (le_bytes 8 (start KFile base (-1) 0)) 
      [(112, 8, le_bytes 8 (start KFile base (-1) 1)); (120, 8, le_bytes 8 (start KFile base (-1) 2)); (96, 4, le_bytes 4 0)] 104); [reflexivity|reflexivity|rewrite len_le_bytes; lia].
  - change (nbytes KDate (-1)) with (Val 64). cbn [cbind].
    rewrite (Hb _ (firstn 9 (hdr_fields h base (-1) (-1))) 64 8 (le_bytes 8 (h 64)) 
      (skipn 10 (hdr_fields h base (-1) (-1)) ++ own_fields KDate h base (-1)) 64); [reflexivity|reflexivity|rewrite len_le_bytes; lia].
Qed.

Lemma overflow_fact h base junk empty mincount : mincount <= INT_MAX -> make KDbl h base junk empty mincount INT_MAX = UB.
Proof.
  intro H. unfold make. cbn [real_max]. replace (INT_MAX <? mincount) with false by lia. reflexivity.
Qed.
