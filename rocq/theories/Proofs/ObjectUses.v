(** Any sequence of uses of an option object; the list of errors. *)
From Coq Require Import ZArith Bool List Lia ZifyBool.
From Verif.Base Require Import CInt.
From Verif.Model Require Import ArgObject.
From Verif.Spec Require Import ObjectSpec.
From Verif.Proofs Require Import ObjectMem ObjectProofs.
Import ListNotations.
Open Scope Z_scope.

Definition has_values (K : kind) : bool := match K with KLit => false | _ => true end.

Section Uses.
  Variables (K : kind) (base m n : Z).
  Hypothesis Hm : max_ok K m.
  Hypothesis Hn : INT_MIN <= n <= INT_MAX.
  Hypothesis Ha : allocated base (total K m).
  Notation rep := (rep K base m n).

  Definition same_header (b b' : block) : Prop := forall x, x < 96 -> b_byte b' x = b_byte b x.
  Lemma same_header_trans a b c : same_header a b -> same_header b c -> same_header a c.
  Proof. intros A B x Hx. rewrite B, A by exact Hx. reflexivity. Qed.

  Lemma count_int o : 0 <= o_count o <= m -> INT_MIN <= o_count o <= INT_MAX.
  Proof. destruct Hm as (B & _). unfold INT_MIN, INT_MAX in *. lia. Qed.

  Lemma rep_old b o g : rep b o -> 0 <= o_count o < m -> old_value K b (o_count o) g = Val tt.
  Proof.
    intros R C. unfold old_value. destruct K eqn:EK; try (destruct g; reflexivity).
    assert (E : entry_of KDate b 0 (o_count o) = Val (o_entry o 0%nat (o_count o))).
    { subst. apply (rep_entry KDate base m n Hm Ha b o 0 (o_count o) R); [cbn; lia|exact C]. }
    unfold entry_of in E. destruct g; [reflexivity| |];
      (destruct (load_ptr b (pointer_at KDate 0)) as [q|]; [|discriminate]; cbn [cbind] in *;
       change (elem KDate 0) with 56 in E; change (elem_align KDate 0) with 8 in E; change (Z.to_nat 56) with 56%nat in E;
       rewrite E; reflexivity).
  Qed.

  Lemma used_count o u : 0 <= o_count o <= m -> 0 <= o_count (snd (used (has_values K) m o u)) <= m.
  Proof.
    intro C. destruct u as [g|]; cbn [used]; [|cbn; destruct Hm; lia].
    destruct (o_count o =? m) eqn:E; [exact C|]. apply Z.eqb_neq in E.
    destruct (has_values K); [destruct g|]; cbn; lia.
  Qed.

  Lemma rep_use b o u :
    rep b o -> 0 <= o_count o <= m -> use_fits K u ->
    exists b', uses K b [u] = Val ([fst (used (has_values K) m o u)], b') /\
               rep b' (snd (used (has_values K) m o u)) /\ same_header b b'.
  Proof.
    intros R C F. destruct u as [g|]; cbn [uses used].
    2:{ unfold reset. destruct (rep_set_count K base m n Hm Ha b o 0 R) as (b' & E & R' & X).
        exists b'. rewrite E. cbn. auto. }
    unfold scan. rewrite (rep_count K base m n Hm Ha b o R (count_int o C)). cbn [cbind].
    rewrite (rep_max K base m n Hm Ha b o R). cbn [cbind].
    destruct (o_count o =? m) eqn:E.
    - exists b. assert (L : (o_count o <? m) = false) by lia. rewrite L.
      destruct K; cbn; repeat split; try apply R; congruence.
    - assert (L : (o_count o <? m) = true) by lia. rewrite L. apply Z.eqb_neq in E.
      assert (C' : 0 <= o_count o < m) by lia.
      destruct (rep_bump K base m n Hm Ha b o R C') as (b1 & E1 & R1 & X1).
      pose proof (rep_old b o g R C') as O.
      destruct (has_values K) eqn:HV.
      2:{ destruct K; try discriminate. rewrite E1. exists b1. cbn. auto. }
      assert (S1 : forall (X Y : cres (Z * block)), (match K with KLit => X | _ => Y end) = Y) by (destruct K; [discriminate|..]; reflexivity).
      rewrite S1, O. cbn [cbind]. destruct g as [|e|vs].
      + rewrite E1. exists b1. cbn. auto.
      + exists b. cbn. repeat split; try apply R.
      + destruct (rep_entries K base m n Hm Ha b o (o_count o) vs R C' F) as (b2 & E2 & R2 & X2).
        destruct (rep_bump K base m n Hm Ha b2 _ R2 C') as (b3 & E3 & R3 & X3).
        rewrite E2. cbn [cbind]. change (o_count (set_entries o (o_count o) vs)) with (o_count o) in E3. rewrite E3.
        exists b3. cbn. split; [reflexivity|]. split; [exact R3|]. apply (same_header_trans _ _ _ X2 X3).
  Qed.

  Lemma uses_cons u us b :
    uses K b (u :: us) = cbind (uses K b [u]) (fun '(e, b) => cbind (uses K b us) (fun '(es, b) => Val (e ++ es, b))).
  Proof.
    destruct u as [g|]; cbn [uses].
    - destruct (scan K b g) as [[e b']|]; reflexivity.
    - destruct (reset K b) as [b'|]; reflexivity.
  Qed.

  Lemma rep_uses us : forall b o,
    rep b o -> 0 <= o_count o <= m -> Forall (use_fits K) us ->
    exists b', uses K b us = Val (fst (all_used (has_values K) m o us), b') /\
               rep b' (snd (all_used (has_values K) m o us)) /\
               0 <= o_count (snd (all_used (has_values K) m o us)) <= m /\ same_header b b'.
  Proof.
    induction us as [|u us IH]; intros b o R C F.
    - exists b. repeat split; try apply R; try apply C.
    - inversion F as [|? ? F1 F2]; subst.
      destruct (rep_use b o u R C F1) as (b1 & E1 & R1 & X1).
      destruct (IH b1 _ R1 (used_count o u C) F2) as (b2 & E2 & R2 & C2 & X2).
      exists b2. rewrite uses_cons, E1. cbn [cbind]. rewrite E2. cbn [cbind all_used].
      destruct (used (has_values K) m o u) as [e o1]. cbn [fst snd] in *.
      destruct (all_used (has_values K) m o1 us) as [es o2]. cbn [fst snd] in *.
      repeat split; try assumption; try lia; try apply R2. apply (same_header_trans _ _ _ X1 X2).
  Qed.

  Lemma rep_check b o : rep b o -> 0 <= o_count o <= m -> check K b = Val (if o_count o <? n then ARG_ERR_MINCOUNT else 0).
  Proof.
    intros R C. unfold check. rewrite (rep_count K base m n Hm Ha b o R (count_int o C)). cbn [cbind].
    rewrite (rep_min K base m n Hm Hn Ha b o R). reflexivity.
  Qed.
End Uses.

(** ** The list of errors *)
(** At most [maximum], the last one replaced when there are more. *)
Definition register_spec (maximum self : Z) (l : list (Z * Z * Z)) (e : Z * Z * Z) : list (Z * Z * Z) :=
  if Z.of_nat (length l) <? maximum then l ++ [e] else removelast l ++ [(self, ARG_ELIMIT, 0)].
Lemma register_kept m self es : 1 <= m -> fold_left (register_spec m self) es [] = errors_kept m self es.
Proof.
  intro Hm. induction es as [|e es IH] using rev_ind; [unfold errors_kept; cbn [length]; replace (Z.of_nat 0 <=? m) with true by lia; reflexivity|].
  rewrite fold_left_app. cbn [fold_left]. rewrite IH. unfold register_spec, errors_kept. rewrite app_length. cbn [length].
  destruct (Z.of_nat (length es) <=? m) eqn:E.
  - destruct (Z.of_nat (length es) <? m) eqn:L.
    + replace (Z.of_nat (length es + 1) <=? m) with true by lia. reflexivity.
    + replace (Z.of_nat (length es + 1) <=? m) with false by lia. f_equal.
      rewrite removelast_firstn_len. rewrite firstn_app. replace (Z.to_nat (m - 1) - length es)%nat with 0%nat by lia.
      cbn [firstn]. rewrite app_nil_r. f_equal. lia.
  - replace (Z.of_nat (length es + 1) <=? m) with false by lia.
    rewrite app_length, firstn_length. cbn [length].
    replace (Z.of_nat (Nat.min (Z.to_nat (m - 1)) (length es) + 1) <? m) with false by lia.
    rewrite removelast_last, firstn_app. replace (Z.to_nat (m - 1) - length es)%nat with 0%nat by lia.
    cbn [firstn]. now rewrite app_nil_r.
Qed.
Definition listed (o : object) (l : list (Z * Z * Z)) : Prop :=
  o_count o = Z.of_nat (length l) /\
  forall i parent error argval, nth_error l i = Some (parent, error, argval) ->
    o_entry o 0%nat (Z.of_nat i) = le_bytes 4 error /\ o_entry o 1%nat (Z.of_nat i) = le_bytes 8 parent /\
    o_entry o 2%nat (Z.of_nat i) = le_bytes 8 argval.

Section Errors.
  Variables (base m : Z).
  Hypothesis Hm : max_ok KEnd m.
  Hypothesis H1 : 1 <= m.
  Hypothesis Ha : allocated base (total KEnd m).
  Notation rep := (rep KEnd base m 1).
  Let Hn : INT_MIN <= 1 <= INT_MAX. Proof. unfold INT_MIN, INT_MAX; lia. Qed.

  Lemma rep_register b o l parent error argval :
    rep b o -> listed o l -> Z.of_nat (length l) <= m ->
    exists b' o', register b parent error argval = Val b' /\ rep b' o' /\
      listed o' (register_spec m base l (parent, error, argval)) /\
      Z.of_nat (length (register_spec m base l (parent, error, argval))) <= m /\ same_header b b'.
  Proof.
    intros R (LC & LE) LM. unfold register.
    assert (C : 0 <= o_count o <= m) by (rewrite LC; lia).
    rewrite (rep_count KEnd base m 1 Hm Ha b o R (count_int KEnd m Hm o C)). cbn [cbind].
    rewrite (rep_max KEnd base m 1 Hm Ha b o R). cbn [cbind]. unfold register_spec. rewrite LC.
    destruct (Z.of_nat (length l) <? m) eqn:E.
    - apply Z.ltb_lt in E. assert (C' : 0 <= o_count o < m) by lia.
      destruct (rep_entries KEnd base m 1 Hm Ha b o (o_count o) [le_bytes 4 error; le_bytes 8 parent; le_bytes 8 argval] R C') as (b1 & E1 & R1 & X1).
      { unfold fits. cbn [map]. rewrite !len_le_bytes. reflexivity. }
      destruct (rep_bump KEnd base m 1 Hm Ha b1 _ R1 C') as (b2 & E2 & R2 & X2).
      rewrite <- LC, E1. cbn [cbind]. change (o_count (set_entries o (o_count o) [le_bytes 4 error; le_bytes 8 parent; le_bytes 8 argval])) with (o_count o) in E2.
      exists b2. eexists. split; [exact E2|]. split; [exact R2|]. split; [|split].
      + split; [cbn [counted set_entries o_count]; rewrite LC, app_length; cbn [length]; lia|].
        intros i p e a Hi. cbn [counted set_entries o_entry]. rewrite LC.
        destruct (Nat.lt_ge_cases i (length l)) as [Hl|Hl].
        * rewrite nth_error_app1 in Hi by exact Hl. replace (Z.of_nat i =? Z.of_nat (length l)) with false by lia.
          now apply LE.
        * rewrite nth_error_app2 in Hi by exact Hl. destruct (i - length l)%nat as [|d] eqn:Ed; [|destruct d; discriminate].
          cbn in Hi. injection Hi as <- <- <-. replace (Z.of_nat i =? Z.of_nat (length l)) with true by lia. cbn [nth]. auto.
      + rewrite app_length. cbn [length]. lia.
      + apply (same_header_trans _ _ _ X1 X2).
    - apply Z.ltb_ge in E. assert (L : Z.of_nat (length l) = m) by lia.
      unfold int_op. destruct Hm as (B & _). unfold INT_MAX in B.
      assert (I : in_int (m - 1) = true) by (apply in_int_iff; unfold INT_MIN, INT_MAX; lia).
      rewrite I. cbn [cbind]. assert (C' : 0 <= m - 1 < m) by lia.
      destruct (rep_entries KEnd base m 1 Hm Ha b o (m - 1) [le_bytes 4 ARG_ELIMIT; le_bytes 8 base; le_bytes 8 0] R C') as (b1 & E1 & R1 & X1).
      { unfold fits. cbn [map]. rewrite !len_le_bytes. reflexivity. }
      rewrite (r_base _ _ _ _ _ _ R), E1. exists b1. eexists. split; [reflexivity|]. split; [exact R1|].
      assert (LR : (S (length (removelast l)) = length l)%nat).
      { destruct l as [|x l0]; [cbn in L; lia|]. pose proof (app_removelast_last x (l := x :: l0) ltac:(discriminate)) as A.
        apply (f_equal (@length _)) in A. rewrite app_length in A. cbn [length] in *. lia. }
      split; [|split].
      + split; [cbn [set_entries o_count]; rewrite LC, app_length; cbn [length]; lia|].
        intros i p e a Hi. cbn [set_entries o_entry].
        destruct (Nat.lt_ge_cases i (length (removelast l))) as [Hl|Hl].
        * rewrite nth_error_app1 in Hi by exact Hl. replace (Z.of_nat i =? m - 1) with false by lia.
          apply LE. destruct l as [|x l0]; [cbn in L; lia|].
          rewrite (app_removelast_last x (l := x :: l0)) by discriminate. rewrite nth_error_app1 by exact Hl. exact Hi.
        * rewrite nth_error_app2 in Hi by exact Hl. destruct (i - length (removelast l))%nat as [|d] eqn:Ed; [|destruct d; discriminate].
          cbn in Hi. injection Hi as <- <- <-. replace (Z.of_nat i =? m - 1) with true by lia. cbn [nth]. auto.
      + rewrite app_length. cbn [length]. lia.
      + exact X1.
  Qed.

  Lemma rep_registers es : forall b o l,
    rep b o -> listed o l -> Z.of_nat (length l) <= m ->
    exists b' o', registers b es = Val b' /\ rep b' o' /\
      listed o' (fold_left (register_spec m base) es l) /\
      Z.of_nat (length (fold_left (register_spec m base) es l)) <= m /\ same_header b b'.
  Proof.
    induction es as [|[[p e] a] es IH]; intros b o l R L M.
    - exists b, o. split; [reflexivity|]. split; [exact R|]. split; [exact L|]. split; [exact M|]. intros x _. reflexivity.
    - destruct (rep_register b o l p e a R L M) as (b1 & o1 & E1 & R1 & L1 & M1 & X1).
      destruct (IH b1 o1 _ R1 L1 M1) as (b2 & o2 & E2 & R2 & L2 & M2 & X2).
      exists b2, o2. cbn [registers]. rewrite E1. cbn [cbind]. rewrite E2. cbn [fold_left].
      split; [reflexivity|]. split; [exact R2|]. split; [exact L2|]. split; [exact M2|]. apply (same_header_trans _ _ _ X1 X2).
  Qed.
End Errors.
