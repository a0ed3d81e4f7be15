(** arg_file finds the base name and the extension. *)
From Coq Require Import ZArith Bool List Ascii String Arith Lia.
From Verif.Base Require Import CInt CStr CMem.
From Verif.Model Require Import ArgInt ArgFile.
From Verif.Spec Require Import FileSpec.
Import ListNotations.
Open Scope list_scope.
Open Scope nat_scope.

Lemma strrchr_some c s i : strrchr s c = Some i -> exists a b, s = a ++ c :: b /\ List.length a = i /\ ~ In c b.
Proof.
  revert i. induction s as [|d s IH]; intros i H; [discriminate|]. cbn [strrchr] in H. destruct (strrchr s c) as [j|] eqn:E.
  - injection H as <-. destruct (IH j eq_refl) as (a & b & -> & L & N). exists (d :: a), b. cbn. auto.
  - destruct (aeqb d c) eqn:D; [|discriminate]. injection H as <-. apply aeqb_eq in D as ->. exists [], s. split; [reflexivity|]. split; [reflexivity|].
    clear -E. induction s as [|e s IH]; [intros []|]. cbn [strrchr] in E. destruct (strrchr s c) eqn:E'; [discriminate|].
    destruct (aeqb e c) eqn:D; [discriminate|]. intros [->|I0]; [rewrite aeqb_refl in D; discriminate|exact (IH eq_refl I0)].
Qed.
Lemma strrchr_none c s : strrchr s c = None -> ~ In c s.
Proof.
  induction s as [|e s IH]; intros E; [intros []|]. cbn [strrchr] in E. destruct (strrchr s c) eqn:E'; [discriminate|].
  destruct (aeqb e c) eqn:D; [discriminate|]. intros [->|I0]; [rewrite aeqb_refl in D; discriminate|exact (IH eq_refl I0)].
Qed.
Lemma str_eqb_eq a b : str_eqb a b = true <-> a = b.
Proof.
  revert b. induction a as [|c a IH]; intros [|d b]; cbn; try (split; [discriminate|discriminate]); [tauto|].
  rewrite andb_true_iff, IH, aeqb_eq. split; [intros [-> ->]; reflexivity|intros E; injection E; auto].
Qed.
Lemma skipn_past {A} (a : list A) c b : skipn (List.length a + 1) (a ++ c :: b) = b.
Proof. rewrite Nat.add_1_r. induction a as [|x a IH]; [reflexivity|exact IH]. Qed.
Lemma skipn_at {A} (a b : list A) : skipn (List.length a) (a ++ b) = b.
Proof. induction a as [|x a IH]; [reflexivity|exact IH]. Qed.

Lemma last_unique (c : ascii) a b a' b' : a ++ c :: b = a' ++ c :: b' -> ~ In c b -> ~ In c b' -> a = a' /\ b = b'.
Proof.
  revert a'. induction a as [|x a IH]; intros [|y a'] E N N'; cbn in E.
  - injection E as ->. auto.
  - injection E as <- ->. exfalso. apply N. apply in_or_app. right. left. reflexivity.
  - injection E as -> <-. exfalso. apply N'. apply in_or_app. right. left. reflexivity.
  - injection E as -> E. destruct (IH a' E N N') as [-> ->]. auto.
Qed.

Lemma basename_of name : base_of name (skipn (arg_basename name) name).
Proof.
  unfold arg_basename, FILESEPARATOR1, FILESEPARATOR2. cbv zeta.
  destruct (strrchr name "/") as [i|] eqn:E.
  - destruct (strrchr_some _ _ _ E) as (a & b & -> & <- & N). rewrite skipn_past.
    exists (a ++ lit "/"), b. split; [rewrite <- app_assoc; reflexivity|]. split; [right; exists a; reflexivity|]. split; [exact N|].
    destruct (str_eqb (lit ".") b || str_eqb (lit "..") b) eqn:D.
    + left. rewrite skipn_all. apply orb_true_iff in D. rewrite !str_eqb_eq in D. split; [destruct D; auto|reflexivity].
    + right. apply orb_false_iff in D as [D1 D2]. rewrite skipn_past. repeat split; [intros -> |intros ->]; cbn in *; discriminate.
  - apply strrchr_none in E. exists [], name. split; [reflexivity|]. split; [left; reflexivity|]. split; [exact E|]. cbn [skipn].
    destruct (str_eqb (lit ".") name || str_eqb (lit "..") name) eqn:D.
    + left. rewrite skipn_all. apply orb_true_iff in D. rewrite !str_eqb_eq in D. split; [destruct D; auto|reflexivity].
    + right. apply orb_false_iff in D as [D1 D2]. repeat split; [intros -> |intros ->]; cbn in *; discriminate.
Qed.
Lemma base_unique name b b' : base_of name b -> base_of name b' -> b = b'.
Proof.
  assert (P : forall (d l d' l' : str), d ++ l = d' ++ l' -> (d = [] \/ exists x, d = x ++ lit "/") -> (d' = [] \/ exists x, d' = x ++ lit "/") ->
    ~ In "/"%char l -> ~ In "/"%char l' -> l = l').
  { intros d l d' l' E [-> |(x & ->)] [-> |(x' & ->)] N N'.
    - exact E.
    - exfalso. apply N. cbn in E. rewrite E, <- app_assoc. apply in_or_app. right. left. reflexivity.
    - exfalso. apply N'. cbn in E. rewrite <- E, <- app_assoc. apply in_or_app. right. left. reflexivity.
    - rewrite <- !app_assoc in E. exact (proj2 (last_unique _ _ _ _ _ E N N')). }
  intros (d & l & -> & Hd & Hl & C) (d' & l' & E & Hd' & Hl' & C'). assert (l = l') as -> by (apply (P d l d' l'); auto). intuition congruence.
Qed.
Lemma dotted_unique base x y : dotted base x -> dotted base y -> x = y.
Proof.
  intros (s & e & -> & -> & N & _) (s' & e' & E & -> & N' & _). cbn in E. destruct (last_unique _ _ _ _ _ E N N') as [_ ->]. reflexivity.
Qed.
Lemma ext_unique base x y : ext_of base x -> ext_of base y -> x = y.
Proof. intros [D|(-> & N)] [D'|(-> & N')]; [exact (dotted_unique _ _ _ D D')|exfalso; eauto|exfalso; eauto|reflexivity]. Qed.
Lemma extension_of base : ext_of base (skipn (arg_extension base) base).
Proof.
  unfold arg_extension. cbv zeta. destruct (strrchr base ".") as [i|] eqn:E.
  - destruct (strrchr_some _ _ _ E) as (a & b & -> & <- & N). destruct (Nat.eqb_spec (List.length a) 0) as [L|L].
    + destruct a; [|discriminate L]. rewrite skipn_all. cbn [List.length Nat.eqb]. rewrite skipn_all. right. split; [reflexivity|].
      intros (x & s & e & E1 & -> & N1 & S1 & _). change ([] ++ "."%char :: b) with ([] ++ "."%char :: b) in E1. cbn [app lit] in E1.
      destruct (last_unique "."%char [] b s e E1 N N1) as [<- _]. apply S1. reflexivity.
    + rewrite skipn_at. cbn [List.length]. destruct (Nat.eqb_spec (S (List.length b)) 1) as [L1|L1].
      * destruct b; [|discriminate L1]. rewrite skipn_all. right. split; [reflexivity|].
        intros (x & s & e & E1 & -> & N1 & _ & E2). destruct (last_unique "."%char a [] s e E1 N N1) as [_ <-]. apply E2. reflexivity.
      * rewrite skipn_at. left. exists a, b. repeat split; [exact N|intros ->; apply L; reflexivity|intros ->; apply L1; reflexivity].
  - apply strrchr_none in E. assert (N : ~ exists x, dotted base x).
    { intros (x & s & e & -> & -> & _). apply E. apply in_or_app. right. left. reflexivity. }
    destruct (List.length base =? 0); cbn [List.length]; rewrite !skipn_all; cbn [List.length Nat.eqb]; rewrite skipn_all; right; auto.
Qed.
Lemma assign_stored a i v : (0 <= i < Z.of_nat (List.length a))%Z -> exists a', assign a i v = Val a' /\ stored_at a (Z.to_nat i) v a'.
Proof.
  intros H. unfold assign. destruct (Z.leb_spec 0 i); [|lia]. destruct (Z.ltb_spec i (Z.of_nat (List.length a))); [|lia]. cbn [andb].
  eexists. split; [reflexivity|]. assert (L : Z.to_nat i < List.length a) by lia. generalize (Z.to_nat i) L. clear. intros n L. unfold stored_at.
  assert (F : List.length (firstn n a) = n) by (rewrite firstn_length; lia).
  repeat split.
  - rewrite !app_length, F, skipn_length. cbn. lia.
  - rewrite nth_error_app2 by lia. rewrite F, Nat.sub_diag. reflexivity.
  - intros k K. destruct (Nat.lt_ge_cases k n) as [Q|Q].
    + rewrite nth_error_app1 by lia. clear -Q. revert k a Q. induction n as [|n IH]; intros [|k] [|x a] Q; cbn; try reflexivity; try lia. apply IH. lia.
    + rewrite nth_error_app2 by lia. rewrite F. destruct (k - n) as [|j] eqn:D; [lia|]. cbn [app nth_error].
      assert (k = S n + j) as -> by lia. clear -L. revert a L. induction n as [|n IH]; intros [|x a] L; cbn in *; try lia; [reflexivity|]. apply IH. lia.
Qed.
Lemma file_scanned maxcount f name : (0 <= f_count f < maxcount)%Z ->
  Z.of_nat (List.length (f_filename f)) = maxcount -> Z.of_nat (List.length (f_basename f)) = maxcount ->
  Z.of_nat (List.length (f_extension f)) = maxcount ->
  exists f' base ext, file_scan maxcount f (Some name) = Val (0%Z, f') /\ f_count f' = (f_count f + 1)%Z /\
    base_of name base /\ ext_of base ext /\ let i := Z.to_nat (f_count f) in
    stored_at (f_filename f) i name (f_filename f') /\ stored_at (f_basename f) i base (f_basename f') /\
    stored_at (f_extension f) i ext (f_extension f').
Proof.
  intros H L1 L2 L3. unfold file_scan. destruct (Z.eqb_spec (f_count f) maxcount); [lia|]. cbv zeta.
  set (base := skipn (arg_basename name) name). set (ext := skipn (arg_extension base) base).
  destruct (assign_stored (f_filename f) (f_count f) name) as (a1 & -> & S1); [lia|].
  destruct (assign_stored (f_basename f) (f_count f) base) as (a2 & -> & S2); [lia|].
  destruct (assign_stored (f_extension f) (f_count f) ext) as (a3 & -> & S3); [lia|]. cbn [cbind].
  exists (mkF a1 a2 a3 (f_count f + 1)), base, ext. repeat (split; [first [reflexivity|apply basename_of|apply extension_of]|]). cbn. auto.
Qed.
Lemma file_edges maxcount f v :
  (f_count f = maxcount -> file_scan maxcount f v = Val (ARG_ERR_MAXCOUNT, f)) /\
  ((f_count f < maxcount)%Z -> file_scan maxcount f None = Val (0%Z, mkF (f_filename f) (f_basename f) (f_extension f) (f_count f + 1))).
Proof.
  unfold file_scan. split; intros H; destruct (Z.eqb_spec (f_count f) maxcount); try lia; reflexivity.
Qed.
Lemma base_and_ext_unique name base base' ext ext' : base_of name base -> base_of name base' -> ext_of base ext -> ext_of base' ext' ->
  base = base' /\ ext = ext'.
Proof.
  intros B B' X X'. assert (base = base') as -> by exact (base_unique _ _ _ B B'). split; [reflexivity|]. exact (ext_unique _ _ _ X X').
Qed.
