(** C77: dates and times.  The code is in Model/ArgDate.v ([DUB]: undefined behaviour; [DOut]: more
    rounds than [fuel]); formats, what they read and how dates are written in them are in
    Spec/DateSpec.v. *)
From Coq Require Import ZArith Bool List Ascii String Lia.
From Verif.Base Require Import CInt CStr CMem Tm.
From Verif.Model Require Import ArgInt ArgDate.
From Verif.Spec Require Import DateSpec.
From Verif.Proofs Require Import DateMain DateClaims.
Import ListNotations.
Open Scope list_scope.
Open Scope Z_scope.

(** The argument is stored exactly if the format reads all of it; otherwise it is an error and nothing changes. *)
Theorem C77_scan : forall fuel format ps maxcount count tmval v t,
  no_nul format -> parts_of format = Some ps -> one_year ps -> (List.length format + 13 <= fuel)%nat ->
  0 <= count < maxcount -> nth_error tmval (Z.to_nat count) = Some t -> INT_MIN <= tm_hour t ->
  (exists t' tmval', reads ps v t [] t' /\ date_scan fuel format maxcount count tmval (Some v) = DRet (0, count + 1, tmval') /\
     slot tmval (Z.to_nat count) t' tmval') \/
  ((forall t', ~ reads ps v t [] t') /\ date_scan fuel format maxcount count tmval (Some v) = DRet (ARG_ERR_BADDATE, count, tmval)).
Proof. exact date_scanned. Qed.
Print Assumptions C77_scan.

(** A text reads in one way. *)
Theorem C77_one : forall ps text t r1 t1 r2 t2, reads ps text t r1 t1 -> reads ps text t r2 t2 -> r1 = r2 /\ t1 = t2.
Proof. exact reads_once. Qed.
Print Assumptions C77_one.

(** Every format, right or wrong, ends without undefined behaviour; with a wrong one nothing is ever stored. *)
Theorem C77_ends : forall fuel format maxcount count tmval v t,
  no_nul format -> (List.length format + 13 <= fuel)%nat ->
  0 <= count < maxcount -> nth_error tmval (Z.to_nat count) = Some t -> INT_MIN <= tm_hour t ->
  (exists t' tmval', date_scan fuel format maxcount count tmval (Some v) = DRet (0, count + 1, tmval') /\ slot tmval (Z.to_nat count) t' tmval' /\
     exists ps, parts_of format = Some ps) \/
  date_scan fuel format maxcount count tmval (Some v) = DRet (ARG_ERR_BADDATE, count, tmval).
Proof. exact date_ends. Qed.
Print Assumptions C77_ends.

(** A date written as strftime writes it is read back: the members the format names are those of the date, the others stay. *)
Theorem C77_round_trip : forall fuel format ps d maxcount count tmval v t,
  no_nul format -> parts_of format = Some ps -> one_year ps -> clock ps -> (List.length format + 13 <= fuel)%nat ->
  0 <= count < maxcount -> nth_error tmval (Z.to_nat count) = Some t -> INT_MIN <= tm_hour t ->
  valid d -> written_all d ps v ->
  exists t' tmval', date_scan fuel format maxcount count tmval (Some v) = DRet (0, count + 1, tmval') /\
    slot tmval (Z.to_nat count) t' tmval' /\ same_date ps d t t'.
Proof. exact date_round. Qed.
Print Assumptions C77_round_trip.

(** One date too many is an error and changes nothing; an option without its value only counts. *)
Theorem C77_edges : forall fuel format maxcount count tmval v,
  date_scan fuel format maxcount maxcount tmval v = DRet (ARG_ERR_MAXCOUNT, maxcount, tmval) /\
  (count < maxcount -> date_scan fuel format maxcount count tmval None = DRet (0, count + 1, tmval)).
Proof. exact date_edges. Qed.
Print Assumptions C77_edges.

(** ** Where it falls short *)
(** Century and year of the century: "1999" becomes the year 3899. *)
Theorem C77_century_refuted : date_scan 100 (lit "%C%y") 1 0 [zero] (Some (lit "1999")) = DRet (0, 1, [set_year 1999 zero]).
Proof. exact century_off. Qed.
Print Assumptions C77_century_refuted.
(** AM and PM are only read at the end of the text: a format that goes on behind them reads nothing at all. *)
Theorem C77_half_refuted : forall fuel v t, (20 <= fuel)%nat -> INT_MIN <= tm_hour t -> strptime fuel v (lit "%I%p:%M") t false = DRet None.
Proof. exact half_early. Qed.
Print Assumptions C77_half_refuted.
(** The call in the error message, whose result is to be the example of a right date, fails. *)
Theorem C77_example_refuted : forall t, strptime 100 (lit "1999-12-31 23:59:59") (lit "%F %H:%M:%S") t false = DRet None.
Proof. exact example_lost. Qed.
Print Assumptions C77_example_refuted.
(** There is no calendar: the 31st of February is read. *)
Theorem C77_calendar_refuted : date_scan 100 (lit "%Y-%m-%d") 1 0 [zero] (Some (lit "2023-02-31")) = DRet (0, 1, [set_mday 31 (set_mon 1 (set_year 123 zero))]).
Proof. exact no_calendar. Qed.
Print Assumptions C77_calendar_refuted.
(** The day as strftime's %e writes it, with a blank, is not read by %e. *)
Theorem C77_blank_refuted : date_scan 100 (lit "%e") 1 0 [zero] (Some (lit " 5")) = DRet (ARG_ERR_BADDATE, 0, [zero]).
Proof. exact blank_day. Qed.
Print Assumptions C77_blank_refuted.

(** ** Samples *)
Definition sample_format : str := lit "%a %d %b %Y, %I:%M %p".
Definition sample_parts : list part :=
  [DayName; Space; Day; Space; MonthName; Space; Year; Same ","; Space; Hour12; Same ":"; Minute; Space; Half].
Definition sample_date : date := mkDate 2024 2 29 60 4 13 5 0.
Example C77_sample_format : parts_of sample_format = Some sample_parts /\ one_year sample_parts /\ clock sample_parts /\ valid sample_date.
Proof.
  split; [reflexivity|]. split; [split; [cbn; intuition discriminate|cbn; lia]|]. split; [right; cbn; intuition discriminate|]. unfold valid. cbn. lia.
Qed.
Example C77_sample_read : date_scan 100 sample_format 1 0 [zero] (Some (lit "thu 29 FEB 2024, 01:05 pm")) =
  DRet (0, 1, [mkTm 0 5 13 29 1 124 4 0 0]).
Proof. reflexivity. Qed.
Example C77_sample_date : date_scan 100 (lit "%x") 2 1 [zero; zero] (Some (lit "12/31/68")) = DRet (0, 2, [zero; mkTm 0 0 0 31 11 168 0 0 0]) /\
  date_scan 100 (lit "%x") 2 1 [zero; zero] (Some (lit "12/31/69")) = DRet (0, 2, [zero; mkTm 0 0 0 31 11 69 0 0 0]).
Proof. split; reflexivity. Qed.
Example C77_sample_wrong : date_scan 100 (lit "%D %T") 1 0 [zero] (Some (lit "02/29/24 23:60:00")) = DRet (ARG_ERR_BADDATE, 0, [zero]) /\
  date_scan 100 (lit "%D %T") 1 0 [zero] (Some (lit "02/29/24 23:59:59.")) = DRet (ARG_ERR_BADDATE, 0, [zero]) /\
  date_scan 100 (lit "%Ed") 1 0 [zero] (Some (lit "1")) = DRet (ARG_ERR_BADDATE, 0, [zero]).
Proof. repeat split; reflexivity. Qed.
Ltac piece w := match goal with |- written_all ?d (?p :: ?ps) ?l => let r := eval vm_compute in (skipn (List.length w) l) in
  change (written_all d (p :: ps) (w ++ r)); apply written_part end.
Example C77_sample_written : written_all sample_date sample_parts (lit "Thu 29 Feb 2024, 01:05 PM").
Proof.
  unfold sample_parts. assert (C : forall c, isspace c = false -> ~ isspace c = true) by (intros c -> E; discriminate E).
  piece (lit "Thu"). { exists (lit "Thursday"). split; [reflexivity|]. right. split; [reflexivity|]. unfold letter. vm_compute. intuition congruence. }
  piece (lit " "). { split; [reflexivity|apply C; reflexivity]. }
  piece (lit "29"). { reflexivity. }
  piece (lit " "). { split; [reflexivity|apply C; reflexivity]. }
  piece (lit "Feb"). { exists (lit "February"). split; [reflexivity|]. right. split; [reflexivity|]. unfold letter. vm_compute. intuition congruence. }
  piece (lit " "). { split; [reflexivity|apply C; reflexivity]. }
  piece (lit "2024"). { reflexivity. }
  piece (lit ","). { reflexivity. }
  piece (lit " "). { split; [reflexivity|apply C; reflexivity]. }
  piece (lit "01"). { reflexivity. }
  piece (lit ":"). { reflexivity. }
  piece (lit "05"). { reflexivity. }
  piece (lit " "). { split; [reflexivity|apply C; reflexivity]. }
  piece (lit "PM"). { split; reflexivity. }
  constructor.
Qed.
