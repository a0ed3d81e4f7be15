(** Time stamps. *)
From Coq Require Import ZArith NArith Bool List Ascii String Lia.
From Verif.Base Require Import CInt CStr Tm.
From Verif.Model Require Import Messages Logger Stamp.
From Verif.Spec Require Import IntText LogSpec StampSpec.
From Verif.Proofs Require Import Calendar.
Import ListNotations.
Open Scope list_scope.
Open Scope Z_scope.

Definition digit_text (v : Z) : ascii := ascii_of_N (Z.to_N (48 + v)).

Lemma checked (P : Z -> bool) (n : nat) : forallb P (map Z.of_nat (seq 0 n)) = true -> forall v, 0 <= v < Z.of_nat n -> P v = true.
Proof.
  intros G v V. rewrite forallb_forall in G. apply G. apply in_map_iff. exists (Z.to_nat v). split; [lia|]. apply in_seq. lia.
Qed.

Lemma two_is v : 0 <= v <= 99 -> two_digits v = two v /\ two v = [digit_text (v / 10); digit_text (v mod 10)].
Proof.
  intro V. assert (G : str_eqb (two_digits v) (two v) && str_eqb (two v) [digit_text (v / 10); digit_text (v mod 10)] = true).
  { apply (checked (fun v => str_eqb (two_digits v) (two v) && str_eqb (two v) [digit_text (v / 10); digit_text (v mod 10)]) 100);
      [vm_compute; reflexivity|lia]. }
  apply andb_true_iff in G. rewrite !str_eqb_eq in G. exact G.
Qed.

Lemma four_is y : 1000 <= y <= 9999 -> decimal y = decimal (y / 100) ++ two (y mod 100).
Proof.
  intro V. assert (G : str_eqb (decimal (1000 + (y - 1000))) (decimal ((1000 + (y - 1000)) / 100) ++ two ((1000 + (y - 1000)) mod 100)) = true).
  { apply (checked (fun v => str_eqb (decimal (1000 + v)) (decimal ((1000 + v) / 100) ++ two ((1000 + v) mod 100))) (N.to_nat 9000));
      [vm_compute; reflexivity|lia]. }
  rewrite str_eqb_eq in G. replace (1000 + (y - 1000)) with y in G by lia. exact G.
Qed.
Lemma two_big v : 10 <= v <= 99 -> decimal v = two v.
Proof.
  intro V. assert (G : implb (10 <=? v) (str_eqb (decimal v) (two v)) = true).
  { apply (checked (fun v => implb (10 <=? v) (str_eqb (decimal v) (two v))) 100); [vm_compute; reflexivity|lia]. }
  rewrite (proj2 (Z.leb_le _ _)) in G by lia. apply str_eqb_eq. exact G.
Qed.
Lemma year_text y : 1000 <= y <= 9999 -> decimal y = two (y / 100) ++ two (y mod 100).
Proof. intro V. rewrite four_is by exact V. rewrite two_big by lia. reflexivity. Qed.

(** ** The text of a moment *)
Lemma date_text zone t : our_times (local zone t) -> log_date zone t = Some (stamp_of (local zone t)).
Proof.
  intro L. unfold our_times in L. unfold log_date, localtime. fold (local zone t). set (l := local zone t) in *.
  unfold stamp_of. rewrite <- civil_nth by lia.
  pose proof (civil_years (l / 86400) ltac:(lia)) as Y. pose proof (civil_fits (l / 86400)) as F.
  destruct (civil (l / 86400)) as [[y m] d]. cbn zeta.
  pose proof (length_31 y m) as M.
  rewrite (proj2 (Z.leb_le INT_MIN _)), (proj2 (Z.leb_le _ INT_MAX)) by (unfold INT_MIN, INT_MAX; lia). cbn [andb].
  unfold log_format. cbn [lit list_ascii_of_string strftime_text aeqb Ascii.eqb Bool.eqb tm_year tm_mon tm_mday tm_hour tm_min tm_sec].
  unfold stamp. replace (y - 1900 + 1900) with y by lia. replace (m - 1 + 1) with m by lia.
  rewrite (proj1 (two_is m ltac:(lia))), (proj1 (two_is d ltac:(lia))).
  rewrite (proj1 (two_is (l mod 86400 / 3600) ltac:(lia))).
  rewrite (proj1 (two_is (l mod 86400 mod 3600 / 60) ltac:(lia))).
  rewrite (proj1 (two_is (l mod 86400 mod 60) ltac:(lia))).
  replace (l mod 86400 mod 3600) with (l mod 3600) by lia. replace (l mod 86400 mod 60) with (l mod 60) by lia.
  cbn [app]. rewrite app_nil_r. reflexivity.
Qed.

(** ** Sorting *)
Lemma sb_app_l p a b : sorts_before a b -> sorts_before (p ++ a) (p ++ b).
Proof.
  intros (q & x & y & a' & b' & -> & -> & C). exists (p ++ q), x, y, a', b'. rewrite <- !app_assoc. repeat split. exact C.
Qed.
Lemma sb_app_r a b c d : sorts_before a b -> sorts_before (a ++ c) (b ++ d).
Proof.
  intros (q & x & y & a' & b' & -> & -> & C). exists q, x, y, (a' ++ c), (b' ++ d). rewrite <- !app_assoc. repeat split. exact C.
Qed.
Lemma sb_irrefl a : ~ sorts_before a a.
Proof.
  intros (q & x & y & a' & b' & E & E' & C). rewrite E in E'. apply app_inv_head in E'. injection E' as -> _. lia.
Qed.
Lemma sb_asym a b : sorts_before a b -> sorts_before b a -> False.
Proof.
  intros (p & x & y & a' & b' & -> & -> & C) (q & x2 & y2 & a2 & b2 & E & E' & C2).
  revert q E E'. induction p as [|c p IH]; intros q E E'.
  - destruct q as [|d q]; cbn in E, E'; injection E; injection E'; intros; subst; lia.
  - destruct q as [|d q]; cbn in E, E'; injection E; injection E'; intros; subst; [lia|]. apply (IH q); assumption.
Qed.

Lemma sb_two a b : 0 <= a -> a < b -> b <= 99 -> sorts_before (two a) (two b).
Proof.
  intros A B C. rewrite (proj2 (two_is a ltac:(lia))), (proj2 (two_is b ltac:(lia))).
  assert (D : forall v w, 0 <= v -> v < w -> w <= 9 -> (code (digit_text v) < code (digit_text w))%N).
  { intros v w V1 V2 V3. unfold code, digit_text. rewrite !N_ascii_embedding by lia. lia. }
  destruct (Z.lt_total (a / 10) (b / 10)) as [L|[E|L]]; [| |lia].
  - exists [], (digit_text (a / 10)), (digit_text (b / 10)), [digit_text (a mod 10)], [digit_text (b mod 10)].
    split; [reflexivity|]. split; [reflexivity|]. apply D; lia.
  - exists [digit_text (a / 10)], (digit_text (a mod 10)), (digit_text (b mod 10)), [], [].
    split; [reflexivity|]. split; [rewrite E; reflexivity|]. apply D; lia.
Qed.
Lemma sb_year a b : 1000 <= a -> a < b -> b <= 9999 -> sorts_before (decimal a) (decimal b).
Proof.
  intros A B C. rewrite !year_text by lia. destruct (Z.lt_total (a / 100) (b / 100)) as [L|[E|L]]; [| |lia].
  - apply sb_app_r, sb_two; lia.
  - rewrite E. apply sb_app_l, sb_two; lia.
Qed.

Lemma stamp_lt l1 l2 : our_times l1 -> our_times l2 -> l1 < l2 -> sorts_before (stamp_of l1) (stamp_of l2).
Proof.
  unfold our_times. intros L1 L2 L. unfold stamp_of. rewrite <- !civil_nth by lia.
  pose proof (civil_years (l1 / 86400) ltac:(lia)) as Y1. pose proof (civil_fits (l1 / 86400)) as F1.
  pose proof (civil_years (l2 / 86400) ltac:(lia)) as Y2. pose proof (civil_fits (l2 / 86400)) as F2.
  destruct (civil_le (l1 / 86400) (l2 / 86400) ltac:(lia)) as [E|C].
  - rewrite <- E in *. destruct (civil (l1 / 86400)) as [[y m] d]. unfold stamp.
    do 6 apply sb_app_l.
    destruct (Z.lt_total (l1 mod 86400 / 3600) (l2 mod 86400 / 3600)) as [H|[H|H]]; [apply sb_app_r, sb_two; lia| |lia].
    rewrite H. do 2 apply sb_app_l.
    destruct (Z.lt_total (l1 mod 3600 / 60) (l2 mod 3600 / 60)) as [K|[K|K]]; [apply sb_app_r, sb_two; lia| |lia].
    rewrite K. do 2 apply sb_app_l. apply sb_two; lia.
  - destruct (civil (l1 / 86400)) as [[y m] d], (civil (l2 / 86400)) as [[y2 m2] d2]. unfold stamp. cbn in C.
    pose proof (length_31 y m). pose proof (length_31 y2 m2).
    destruct C as [C|[-> [C|[-> C]]]].
    + apply sb_app_r, sb_year; lia.
    + do 2 apply sb_app_l. apply sb_app_r, sb_two; lia.
    + do 4 apply sb_app_l. apply sb_app_r, sb_two; lia.
Qed.

Lemma stamp_order l1 l2 : our_times l1 -> our_times l2 -> (sorts_before (stamp_of l1) (stamp_of l2) <-> l1 < l2).
Proof.
  intros L1 L2. split; [|apply stamp_lt; assumption]. intro S.
  destruct (Z.lt_total l1 l2) as [L|[->|L]]; [exact L| |]; exfalso.
  - exact (sb_irrefl _ S).
  - exact (sb_asym _ _ S (stamp_lt l2 l1 L2 L1 L)).
Qed.

Lemma stamp_once l1 l2 : our_times l1 -> our_times l2 -> stamp_of l1 = stamp_of l2 -> l1 = l2.
Proof.
  intros L1 L2 E. destruct (Z.lt_total l1 l2) as [L|[L|L]]; [|exact L|]; exfalso.
  - apply (sb_irrefl (stamp_of l1)). rewrite E at 2. apply stamp_lt; assumption.
  - apply (sb_irrefl (stamp_of l1)). rewrite E at 1. apply stamp_lt; assumption.
Qed.

(** ** Shape *)
Definition clock_char (c : ascii) : Prop := (48 <= code c <= 58)%N \/ c = "-"%char \/ c = " "%char.
Lemma two_shape v : 0 <= v <= 99 -> List.length (two v) = 2%nat /\ Forall clock_char (two v).
Proof.
  intro V. rewrite (proj2 (two_is v V)). split; [reflexivity|].
  assert (D : forall v, 0 <= v <= 9 -> clock_char (digit_text v)).
  { intros w W. left. unfold code, digit_text. rewrite N_ascii_embedding by lia. lia. }
  constructor; [apply D; lia|constructor; [apply D; lia|constructor]].
Qed.
Lemma stamp_shape l : our_times l -> List.length (stamp_of l) = 19%nat /\ Forall clock_char (stamp_of l).
Proof.
  unfold our_times. intro L. unfold stamp_of. rewrite <- civil_nth by lia.
  pose proof (civil_years (l / 86400) ltac:(lia)) as Y. pose proof (civil_fits (l / 86400)) as F.
  destruct (civil (l / 86400)) as [[y m] d]. pose proof (length_31 y m). unfold stamp. rewrite year_text by lia.
  destruct (two_shape (y / 100) ltac:(lia)) as [A1 A2]. destruct (two_shape (y mod 100) ltac:(lia)) as [B1 B2].
  destruct (two_shape m ltac:(lia)) as [C1 C2]. destruct (two_shape d ltac:(lia)) as [D1 D2].
  destruct (two_shape (l mod 86400 / 3600) ltac:(lia)) as [E1 E2]. destruct (two_shape (l mod 3600 / 60) ltac:(lia)) as [G1 G2].
  destruct (two_shape (l mod 60) ltac:(lia)) as [H1 H2].
  split.
  - rewrite !app_length, A1, B1, C1, D1, E1, G1, H1. reflexivity.
  - assert (S : Forall clock_char (lit "-") /\ Forall clock_char (lit " ") /\ Forall clock_char (lit ":")).
    { repeat split; (constructor; [|constructor]); [right; left|right; right|left; vm_compute; split; discriminate]; reflexivity. }
    destruct S as (S1 & S2 & S3). repeat first [assumption|apply Forall_app; split].
Qed.
