(** Decimal notation and numerals. *)
From Coq Require Import ZArith Bool List Ascii String Lia Decimal DecimalString DecimalZ.
From Verif.Base Require Import CInt CStr.
From Verif.Spec Require Import IntText.
From Verif.Proofs Require Import ArgIntProofs.
From Verif.Model Require Import ArgInt.
Import ListNotations.
Open Scope list_scope.
Open Scope Z_scope.

Definition chars (d : Decimal.uint) : str := lit (NilEmpty.string_of_uint d).

Fixpoint vals (d : Decimal.uint) : list Z :=
  match d with
  | Decimal.Nil => []
  | Decimal.D0 d => 0 :: vals d | Decimal.D1 d => 1 :: vals d | Decimal.D2 d => 2 :: vals d
  | Decimal.D3 d => 3 :: vals d | Decimal.D4 d => 4 :: vals d | Decimal.D5 d => 5 :: vals d
  | Decimal.D6 d => 6 :: vals d | Decimal.D7 d => 7 :: vals d | Decimal.D8 d => 8 :: vals d
  | Decimal.D9 d => 9 :: vals d
  end.

Lemma chars_vals d : Forall2 (digit 10) (chars d) (vals d).
Proof. induction d; cbn; constructor; try exact IHd; (split; [lia|left; reflexivity]). Qed.

Lemma of_uint_acc_vals d acc :
  Z.pos (Pos.of_uint_acc d acc) = fold_left (fun a x => a * 10 + x) (vals d) (Z.pos acc).
Proof.
  revert acc; induction d; intros acc; cbn [Pos.of_uint_acc vals fold_left]; [reflexivity|..];
    rewrite IHd; f_equal; lia.
Qed.

Lemma of_uint_vals d : Z.of_uint d = fold_left (fun a x => a * 10 + x) (vals d) 0.
Proof.
  unfold Z.of_uint. induction d; cbn [Pos.of_uint vals fold_left]; [reflexivity|exact IHd|..];
    cbn [Z.of_N]; rewrite of_uint_acc_vals; reflexivity.
Qed.

Lemma uint_numeral d : d <> Decimal.Nil -> numeral 10 (chars d) (Z.of_uint d).
Proof.
  intros N. apply numeral_vals. exists (vals d). split; [apply chars_vals|].
  split; [destruct d; cbn; congruence|]. apply of_uint_vals.
Qed.

(** A decimal numeral with optional minus sign. *)
Definition signed_digits (s : str) (n : Z) : Prop :=
  exists sg z ds v, s = sg ++ ds /\ (sg = [] /\ z = 1 \/ sg = lit "-" /\ z = -1) /\ numeral 10 ds v /\ n = z * v.

Lemma lit_cons c s : lit (String c s) = c :: lit s.
Proof. reflexivity. Qed.

Lemma nilzero_uint d : d <> Decimal.Nil -> lit (NilZero.string_of_uint d) = chars d.
Proof. intros N. destruct d; congruence || reflexivity. Qed.

Lemma pos_to_uint_nonnil p : Pos.to_uint p <> Decimal.Nil.
Proof.
  intros E. pose proof (DecimalPos.Unsigned.of_to p) as H. rewrite E in H. discriminate H.
Qed.

Lemma decimal_signed n : signed_digits (decimal n) n.
Proof.
  pose proof (DecimalZ.of_to n) as H. unfold decimal, signed_digits.
  destruct n as [|p|p]; cbn [Z.to_int NilZero.string_of_int] in *.
  - exists [], 1, (lit "0"), 0. split; [reflexivity|]. split; [auto|]. split; [|lia].
    constructor. split; [lia|left; reflexivity].
  - exists [], 1, (chars (Pos.to_uint p)), (Z.pos p).
    split; [cbn [app]; apply nilzero_uint, pos_to_uint_nonnil|]. split; [auto|]. split; [|lia].
    rewrite <- H. apply uint_numeral, pos_to_uint_nonnil.
  - exists (lit "-"), (-1), (chars (Pos.to_uint p)), (Z.pos p).
    split; [|split; [auto|split; [|lia]]].
    + change (lit (String "-" (NilZero.string_of_uint (Pos.to_uint p))))
        with ("-"%char :: lit (NilZero.string_of_uint (Pos.to_uint p))).
      rewrite nilzero_uint by apply pos_to_uint_nonnil. reflexivity.
    + replace (Z.pos p) with (Z.of_uint (Pos.to_uint p)); [apply uint_numeral, pos_to_uint_nonnil|].
      unfold Z.of_int in H. lia.
Qed.

Lemma decimal_plain n : plain_int (decimal n) n.
Proof.
  destruct (decimal_signed n) as (sg & z & ds & v & -> & S & N & ->).
  exists (sg ++ ds), (z * v), [], 1, []. rewrite app_nil_r.
  split; [reflexivity|]. split.
  - apply (plain_dec [] sg z ds v); [constructor| |exact N].
    destruct S as [[-> ->]|[-> ->]]; constructor.
  - split; [constructor|]. split; [constructor|]. lia.
Qed.
