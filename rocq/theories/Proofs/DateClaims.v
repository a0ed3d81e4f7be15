(** What arg_date does with its argument. *)
From Coq Require Import ZArith NArith Bool List Ascii String Lia.
From Verif.Base Require Import CInt CStr CMem Tm.
From Verif.Model Require Import ArgInt ArgDate.
From Verif.Spec Require Import DateSpec.
From Verif.Proofs Require Import DateRead DateSteps DateMain DateTakes DateTotal DateRound.
Import ListNotations.
Open Scope list_scope.
Open Scope Z_scope.

Lemma reads_once ps text t r1 t1 r2 t2 : reads ps text t r1 t1 -> reads ps text t r2 t2 -> r1 = r2 /\ t1 = t2.
Proof. intros H1 H2. apply parts_spec in H1, H2. rewrite H1 in H2. injection H2 as -> ->. auto. Qed.
Lemma slot_of (a : list tm) i t : nth_error a i = Some t -> forall t', slot a i t' (firstn i a ++ [t'] ++ skipn (S i) a).
Proof.
  intros H t'. assert (L : (i < List.length a)%nat) by (apply nth_error_Some; rewrite H; discriminate). clear H. unfold slot.
  assert (F : List.length (firstn i a) = i) by (rewrite firstn_length; lia).
  repeat split.
  - rewrite !app_length, F, skipn_length. cbn. lia.
  - rewrite nth_error_app2 by lia. rewrite F, Nat.sub_diag. reflexivity.
  - intros k K. destruct (Nat.lt_ge_cases k i) as [Q|Q].
    + rewrite nth_error_app1 by lia. clear -Q. revert k a Q. induction i as [|i IH]; intros [|k] [|x a] Q; cbn; try reflexivity; try lia. apply IH. lia.
    + rewrite nth_error_app2 by lia. rewrite F. destruct (k - i)%nat as [|j] eqn:D; [lia|]. cbn [app nth_error].
      assert (k = S i + j)%nat as -> by lia. clear -L. revert a L. induction i as [|i IH]; intros [|x a] L; cbn in *; try lia; [reflexivity|]. apply IH. lia.
Qed.
Lemma scan_run fuel format maxcount count tmval v t : count <> maxcount -> 0 <= count -> nth_error tmval (Z.to_nat count) = Some t ->
  date_scan fuel format maxcount count tmval (Some v) =
  dbind (strptime fuel v format t false) (fun r => match r with
    | Some ([], t) => DRet (0, count + 1, firstn (Z.to_nat count) tmval ++ [t] ++ skipn (S (Z.to_nat count)) tmval)
    | _ => DRet (ARG_ERR_BADDATE, count, tmval) end).
Proof.
  intros H1 H2 H3. unfold date_scan. destruct (Z.eqb_spec count maxcount); [contradiction|]. destruct (Z.ltb_spec count 0); [lia|]. rewrite H3. reflexivity.
Qed.
Theorem date_scanned fuel format ps maxcount count tmval v t :
  no_nul format -> parts_of format = Some ps -> one_year ps -> (List.length format + 13 <= fuel)%nat ->
  0 <= count < maxcount -> nth_error tmval (Z.to_nat count) = Some t -> INT_MIN <= tm_hour t ->
  (exists t' tmval', reads ps v t [] t' /\ date_scan fuel format maxcount count tmval (Some v) = DRet (0, count + 1, tmval') /\
     slot tmval (Z.to_nat count) t' tmval') \/
  ((forall t', ~ reads ps v t [] t') /\ date_scan fuel format maxcount count tmval (Some v) = DRet (ARG_ERR_BADDATE, count, tmval)).
Proof.
  intros Hn P [O1 O2] F Hc Hnth Ht. rewrite (scan_run _ _ _ _ _ _ t) by (auto; lia).
  rewrite (format_good (List.length format) format (le_n _) Hn false ps P O1 O2 fuel F v t Ht). cbn [dbind].
  destruct (read_parts ps v t) as [[rest t']|] eqn:E.
  - apply parts_spec in E. destruct rest as [|c rest].
    + left. exists t'. eexists. split; [exact E|]. split; [reflexivity|]. apply (slot_of _ _ t). exact Hnth.
    + right. split; [|reflexivity]. intros t2 R. destruct (reads_once _ _ _ _ _ _ _ E R) as [Q _]. discriminate Q.
  - right. split; [|reflexivity]. intros t2 R. apply parts_spec in R. congruence.
Qed.
Theorem date_ends fuel format maxcount count tmval v t :
  no_nul format -> (List.length format + 13 <= fuel)%nat ->
  0 <= count < maxcount -> nth_error tmval (Z.to_nat count) = Some t -> INT_MIN <= tm_hour t ->
  (exists t' tmval', date_scan fuel format maxcount count tmval (Some v) = DRet (0, count + 1, tmval') /\ slot tmval (Z.to_nat count) t' tmval' /\
     exists ps, parts_of format = Some ps) \/
  date_scan fuel format maxcount count tmval (Some v) = DRet (ARG_ERR_BADDATE, count, tmval).
Proof.
  intros Hn F Hc Hnth Ht. rewrite (scan_run _ _ _ _ _ _ t) by (auto; lia).
  destruct (strptime_ends (List.length format) format (le_n _) Hn v t false fuel Ht) as (o & -> & Q); [discriminate|exact F|]. cbn [dbind].
  destruct o as [[[|c rest] t']|]; [|right; reflexivity|right; reflexivity]. left. exists t'. eexists. split; [reflexivity|].
  split; [apply (slot_of _ _ t); exact Hnth|]. destruct (parts_of format) as [ps|]; [eauto|]. discriminate (Q eq_refl).
Qed.
Theorem date_edges fuel format maxcount count tmval v :
  date_scan fuel format maxcount maxcount tmval v = DRet (ARG_ERR_MAXCOUNT, maxcount, tmval) /\
  (count < maxcount -> date_scan fuel format maxcount count tmval None = DRet (0, count + 1, tmval)).
Proof.
  unfold date_scan. rewrite Z.eqb_refl. split; [reflexivity|]. intros H. destruct (Z.eqb_spec count maxcount); [lia|reflexivity].
Qed.
Theorem date_round fuel format ps d maxcount count tmval v t :
  no_nul format -> parts_of format = Some ps -> one_year ps -> clock ps -> (List.length format + 13 <= fuel)%nat ->
  0 <= count < maxcount -> nth_error tmval (Z.to_nat count) = Some t -> INT_MIN <= tm_hour t ->
  valid d -> written_all d ps v ->
  exists t' tmval', date_scan fuel format maxcount count tmval (Some v) = DRet (0, count + 1, tmval') /\
    slot tmval (Z.to_nat count) t' tmval' /\ same_date ps d t t'.
Proof.
  intros Hn P O C F Hc Hnth Ht V W. destruct (round_trip d ps v t V C W) as (t1 & R & S1).
  destruct (date_scanned fuel format ps maxcount count tmval v t Hn P O F Hc Hnth Ht) as [(t' & tmval' & R' & E & Q)|(N & _)].
  - destruct (reads_once _ _ _ _ _ _ _ R R') as [_ <-]. eauto.
  - exfalso. exact (N _ R).
Qed.

(** ** Where it falls short *)
Definition zero : tm := mkTm 0 0 0 0 0 0 0 0 0.
(** The year 1999 as century and year of the century. *)
Lemma century_off : date_scan 100 (lit "%C%y") 1 0 [zero] (Some (lit "1999")) = DRet (0, 1, [set_year 1999 zero]).
Proof. reflexivity. Qed.
(** The half of the day reads only at the very end of the text. *)
Lemma half_early fuel v t : (20 <= fuel)%nat -> hok t -> strptime fuel v (lit "%I%p:%M") t false = DRet None.
Proof.
  intros F H. rewrite (format_good 7 (lit "%I%p:%M") ltac:(cbn; lia) ltac:(cbn; unfold no_nul; cbn; intuition discriminate) false [Hour12; Half; Same ":"; Minute] eq_refl
    ltac:(cbn; intuition discriminate) ltac:(cbn; lia) fuel ltac:(cbn; lia) v t H).
  destruct (read_parts [Hour12; Half; Same ":"; Minute] v t) as [[rest t']|] eqn:E; [|reflexivity]. exfalso.
  apply parts_spec in E. inversion E as [|? ? w text ? ? ? ? _ E1]; subst. inversion E1 as [|? ? w1 text1 ? ? ? ? T E2]; subst. destruct T as [-> _].
  apply parts_spec in E2. discriminate E2.
Qed.
(** The example in the message about a wrong date is not the one the code names: its format is not known. *)
Lemma example_lost t : strptime 100 (lit "1999-12-31 23:59:59") (lit "%F %H:%M:%S") t false = DRet None.
Proof. reflexivity. Qed.
(** No calendar: the 31st of February. *)
Lemma no_calendar : date_scan 100 (lit "%Y-%m-%d") 1 0 [zero] (Some (lit "2023-02-31")) = DRet (0, 1, [set_mday 31 (set_mon 1 (set_year 123 zero))]).
Proof. reflexivity. Qed.
(** The day as strftime's %e writes it. *)
Lemma blank_day : date_scan 100 (lit "%e") 1 0 [zero] (Some (lit " 5")) = DRet (ARG_ERR_BADDATE, 0, [zero]).
Proof. reflexivity. Qed.
(** What the format leaves out stays: the hour of the half of the day is the one that was there. *)
Lemma leftovers : date_scan 100 (lit "%M") 1 0 [set_hour 7 zero] (Some (lit "30")) = DRet (0, 1, [set_min 30 (set_hour 7 zero)]).
Proof. reflexivity. Qed.
