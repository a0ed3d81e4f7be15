(** C83. *)
From Coq Require Import ZArith Bool List Ascii Arith Lia.
From Verif.Base Require Import CInt CStr CMem.
From Verif.Model Require Import ArgInt Usage.
From Verif.Spec Require Import DoubleSpec.
Import ListNotations.
Open Scope list_scope.
Open Scope nat_scope.

Section Double.
Variable strtod : str -> Z * nat.
Lemma nth_at_end (t : str) : CMem.load (terminated t) (List.length t) = Val NUL.
Proof.
  unfold CMem.load, terminated, bytes. rewrite nth_error_app2 by (rewrite map_length; lia). rewrite map_length, Nat.sub_diag. reflexivity.
Qed.
Lemma nth_within (t : str) k : k < List.length t -> no_nul t -> exists c, CMem.load (terminated t) k = Val c /\ aeqb c NUL = false.
Proof.
  intros L N. destruct (nth_error t k) as [c|] eqn:E; [|apply nth_error_None in E; lia]. exists c. split.
  - unfold CMem.load, terminated, bytes. rewrite nth_error_app1 by (rewrite map_length; lia). rewrite nth_error_map, E. reflexivity.
  - unfold aeqb. apply Ascii.eqb_neq. intros ->. apply N. eapply nth_error_In. exact E.
Qed.
Lemma over_length ns old : List.length (over_old ns old) = List.length old.
Proof. revert old. induction ns as [|n ns IH]; intros [|x old]; cbn; auto. Qed.

(** One word. *)
Lemma scan_full maxcount dval w : dbl_scan strtod maxcount maxcount dval w = Val (2, maxcount, dval)%Z.
Proof. unfold dbl_scan. rewrite Z.eqb_refl. reflexivity. Qed.
Definition put (n : option Z) (k : nat) (dval : list Z) : list Z :=
  match n with Some v => firstn k dval ++ [v] ++ skipn (S k) dval | None => dval end.
Lemma scan_one (k : nat) maxcount dval w : in_bounds strtod w -> (Z.of_nat k < maxcount <= INT_MAX)%Z -> Z.of_nat (List.length dval) = maxcount ->
  dbl_scan strtod maxcount (Z.of_nat k) dval w =
  if acceptable strtod w then Val (0%Z, Z.of_nat (S k), put (number strtod w) k dval) else Val (5%Z, Z.of_nat k, dval).
Proof.
  intros B Hk Hl. unfold dbl_scan. rewrite (proj2 (Z.eqb_neq _ _)) by lia.
  assert (int_op (Z.of_nat k + 1) = Val (Z.of_nat (S k))) as Ei.
  { unfold int_op. rewrite (proj2 (in_int_iff _)) by (unfold INT_MIN, INT_MAX in *; lia). f_equal. lia. }
  destruct w as [t|]; [|cbn [acceptable number option_map put]; rewrite Ei; reflexivity].
  cbn [in_bounds acceptable number option_map] in *. destruct B as (B & N). destruct (strtod t) as [v e]. cbn [fst snd] in *.
  destruct (Nat.eqb_spec e (List.length t)) as [->|D].
  - rewrite nth_at_end. cbn [cbind]. change (aeqb NUL NUL) with true. cbv iota.
    rewrite (proj2 (Z.leb_le _ _)), (proj2 (Z.ltb_lt _ _)) by lia. cbn [andb]. rewrite Ei. cbn [cbind]. rewrite Nat2Z.id. reflexivity.
  - destruct (nth_within t e) as (c & -> & E); [lia|exact N|]. cbn [cbind]. rewrite E. reflexivity.
Qed.

Lemma over_none ns old : Forall (fun n => n = None) ns -> over_old ns old = old.
Proof. intros F. revert old. induction F as [|n ns -> F IH]; intros [|x old]; cbn; rewrite ?IH; reflexivity. Qed.
Lemma over_put k ns n old : k < List.length old ->
  over_old (repeat None k ++ n :: ns) old = over_old (repeat None (S k) ++ ns) (put n k old).
Proof.
  revert old. induction k as [|k IH]; intros old H; destruct old as [|x old]; try (cbn in H; lia).
  - cbn [repeat app over_old]. destruct n as [v|]; reflexivity.
  - cbn in H. cbn [repeat app over_old]. rewrite IH by lia. destruct n as [v|]; reflexivity.
Qed.
Lemma put_length n k old : k < List.length old -> List.length (put n k old) = List.length old.
Proof. intros H. destruct n as [v|]; [|reflexivity]. unfold put. rewrite app_length, firstn_length, app_length, skipn_length. cbn [List.length]. lia. Qed.

Lemma scan_words_from words : Forall (in_bounds strtod) words -> forall k room dval, (Z.of_nat (k + room) <= INT_MAX)%Z -> List.length dval = k + room ->
  scan_words strtod (Z.of_nat (k + room)) (Z.of_nat k) dval words =
  Val (answers strtod room words, Z.of_nat (k + List.length (counted strtod room words)),
       over_old (repeat None k ++ map (number strtod) (counted strtod room words)) dval).
Proof.
  induction 1 as [|w words B F IH]; intros k room dval Hm Hl.
  - cbn [scan_words answers]. unfold counted. cbn [filter]. rewrite firstn_nil. cbn [map List.length]. rewrite Nat.add_0_r, app_nil_r.
    rewrite over_none by (clear; induction k; constructor; auto). reflexivity.
  - cbn [scan_words]. destruct room as [|room].
    + rewrite Nat.add_0_r in *. rewrite scan_full. cbn [cbind]. specialize (IH k 0 dval). rewrite Nat.add_0_r in IH. rewrite IH by assumption. cbn [cbind answers].
      unfold counted. cbn [firstn]. reflexivity.
    + rewrite scan_one by (first [exact B|lia]). cbn [answers]. unfold counted in *. cbn [filter]. destruct (acceptable strtod w).
      * cbn [cbind firstn map]. replace (k + S room) with (S k + room) by lia. rewrite IH by (rewrite ?put_length by lia; lia). cbn [cbind List.length].
        rewrite over_put by lia. replace (k + S (List.length (firstn room (filter (acceptable strtod) words)))) with (S k + List.length (firstn room (filter (acceptable strtod) words))) by lia.
        reflexivity.
      * cbn [cbind]. rewrite IH by assumption. cbn [cbind]. reflexivity.
Qed.
Lemma scan_words_ok words maxcount dval : Forall (in_bounds strtod) words -> (0 <= maxcount <= INT_MAX)%Z -> Z.of_nat (List.length dval) = maxcount ->
  scan_words strtod maxcount 0 dval words =
  Val (answers strtod (Z.to_nat maxcount) words, Z.of_nat (List.length (counted strtod (Z.to_nat maxcount) words)),
       over_old (map (number strtod) (counted strtod (Z.to_nat maxcount) words)) dval).
Proof.
  intros F H L. pose proof (scan_words_from words F 0 (Z.to_nat maxcount) dval) as X. cbn [Nat.add repeat app] in X. rewrite Z2Nat.id in X by lia. apply X; lia.
Qed.
End Double.
