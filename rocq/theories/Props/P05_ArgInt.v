(** C38, C39: integer option values.  [scan_int] is arg_int_scanfn's
    conversion; what texts denote is in Spec/IntText.v. *)
From Coq Require Import ZArith Bool List Ascii String Lia.
From Verif.Base Require Import CInt CStr.
From Verif.Model Require Import ArgInt.
From Verif.Spec Require Import IntText.
From Verif.Proofs Require Import ArgIntProofs DecimalFacts ArgIntClaims.
Import ListNotations.
Open Scope Z_scope.

(** Texts of the documented format, inside and outside the int range. *)
Example sample_texts :
  plain_int (lit " -12Kb  ") (-12288) /\ is_int (-12288) /\
  plain_int (lit "3GB") 3221225472 /\ ~ is_int 3221225472 /\
  scan_int (lit " -12Kb  ") = Val (Stored (-12288)) /\
  scan_int (lit "0xfF") = Val (Stored 255) /\
  scan_int (lit "0b101") = Val (Stored 5) /\
  scan_int (lit "2097151KB") = Val (Stored 2147482624) /\
  scan_int (lit "2097152KB") = Val (Failed ARG_ERR_OVERFLOW) /\
  scan_int (lit "12q") = Val (Failed ARG_ERR_BADINT).
Proof.
  split; [|split; [unfold is_int; lia|split; [|split; [unfold is_int; lia|vm_compute; auto 10]]]].
  - exists (lit " -12"), (-12), (lit "Kb"), 1024, (lit "  "). split; [reflexivity|].
    split; [|split; [constructor; cbn; tauto|split; [repeat constructor; cbn; tauto|reflexivity]]].
    apply (plain_dec (lit " ") (lit "-") (-1) (lit "12") 12).
    + repeat constructor; cbn; tauto.
    + constructor.
    + apply (numeral_more 10 (lit "1") 1 "2" 2); [constructor|]; (split; [lia|left; reflexivity]).
  - exact (with_unit_decimal 3 (lit "GB") 1073741824 [] (unit_gb _ (or_introl eq_refl)) (Forall_nil _)).
Qed.

(** C38, first half: the value of every documented text is accepted, exactly. *)
Theorem C38_documented_accepted : forall s n,
  plain_int s n -> is_int n -> scan_int s = Val (Stored n).
Proof. intros s n H. exact (proj1 (plain_scan s n H)). Qed.
Print Assumptions C38_documented_accepted.

(** C38: str(n) denotes n. *)
Theorem C38_decimal : forall n, is_int n -> scan_int (decimal n) = Val (Stored n).
Proof. exact shown_scan. Qed.
Print Assumptions C38_decimal.

(** C38, second half, exactly: what is stored is what the text denotes in the
    accepted format (documented format, plus repeated space, sign, 0x after the
    radix prefix), and it fits an int.  The accepted format is larger than the documented
    one ([C38_refuted]). *)
Theorem C38_stored : forall s n, scan_int s = Val (Stored n) <-> int_text s n /\ is_int n.
Proof. exact scan_stored. Qed.
Print Assumptions C38_stored.

(** Every other text is an error, except those of [C38_undefined]. *)
Theorem C38_rejected : forall s,
  (scan_int s = Val (Failed ARG_ERR_BADINT) <-> (forall n, ~ int_text s n) /\ ~ negated_min s) /\
  (scan_int s = Val (Failed ARG_ERR_OVERFLOW) <-> (exists n, int_text s n /\ ~ is_int n) /\ ~ negated_min s) /\
  (scan_int s = UB \/ (exists n, scan_int s = Val (Stored n)) \/
   scan_int s = Val (Failed ARG_ERR_OVERFLOW) \/ scan_int s = Val (Failed ARG_ERR_BADINT)).
Proof. intros s. exact (conj (scan_bad s) (conj (scan_overflow s) (scan_cases s))). Qed.
Print Assumptions C38_rejected.

(** The documented format is part of the accepted one. *)
Theorem C38_formats : forall s n, plain_int s n -> int_text s n.
Proof. exact plain_is_int. Qed.
Print Assumptions C38_formats.

(** A text that is not in the documented format and is accepted. *)
Theorem C38_refuted : exists s n,
  scan_int s = Val (Stored n) /\ forall m, ~ plain_int s m.
Proof.
  exists (lit "0x-5"), (-5). split; [reflexivity|].
  intros m H. apply (plain_zero_head _ m H). vm_compute. tauto.
Qed.
Print Assumptions C38_refuted.

(** Exactly the texts with an inner value of -2^63 or less below a minus sign
    make the conversion overflow a long. *)
Theorem C38_undefined : forall s, scan_int s = UB <-> negated_min s.
Proof. exact scan_UB. Qed.
Print Assumptions C38_undefined.

Theorem C38_undefined_refuted : exists s, scan_int s = UB.
Proof. exists (lit "-0x-8000000000000000"). reflexivity. Qed.
Print Assumptions C38_undefined_refuted.

(** C39: an integer outside the int range, in any notation and with any unit, is
    an overflow error. *)
Theorem C39_never_wraps : forall s n,
  plain_int s n -> ~ is_int n -> scan_int s = Val (Failed ARG_ERR_OVERFLOW).
Proof. intros s n H. exact (proj2 (plain_scan s n H)). Qed.
Print Assumptions C39_never_wraps.

Theorem C39_units : forall n u m w,
  unit_text u m -> blank w ->
  scan_int (decimal n ++ u ++ w) =
    Val (if (-2147483648 <=? n * m) && (n * m <=? 2147483647) then Stored (n * m) else Failed ARG_ERR_OVERFLOW).
Proof.
  intros n u m w U W.
  destruct (plain_scan _ _ (with_unit_decimal n u m w U W)) as [A B].
  destruct ((-2147483648 <=? n * m) && (n * m <=? 2147483647)) eqn:E; [apply A|apply B]; unfold is_int; lia.
Qed.
Print Assumptions C39_units.

(** Whatever is stored is an int. *)
Theorem C39_stored_is_int : forall s n, scan_int s = Val (Stored n) -> is_int n.
Proof. intros s n H. exact (proj2 (proj1 (scan_stored s n) H)). Qed.
Print Assumptions C39_stored_is_int.
