(** Bytes, words and blocks. *)
From Coq Require Import ZArith Bool List Lia ZifyBool.
From Verif.Base Require Import CInt.
From Verif.Model Require Import ArgObject.
Import ListNotations.
Open Scope Z_scope.

Lemma len_nonneg l : 0 <= len l. Proof. unfold len; lia. Qed.
Lemma le_bytes_length n z : length (le_bytes n z) = n.
Proof. revert z; induction n as [|n IH]; intro z; simpl; [reflexivity|]. now rewrite IH. Qed.
Lemma len_le_bytes n z : len (le_bytes n z) = Z.of_nat n.
Proof. unfold len. now rewrite le_bytes_length. Qed.

Lemma le_value_bytes n z : le_value (le_bytes n z) = z mod (256 ^ Z.of_nat n).
Proof.
  revert z; induction n as [|n IH]; intro z; [simpl; now rewrite Z.mod_1_r|].
  cbn [le_bytes le_value]. rewrite IH, Nat2Z.inj_succ, Z.pow_succ_r by lia.
  rewrite Z.rem_mul_r by (try lia; apply Z.pow_pos_nonneg; lia). reflexivity.
Qed.

Lemma read_ptr z : 0 <= z < U64_MOD -> le_value (le_bytes 8 z) = z.
Proof. intro H. rewrite le_value_bytes. apply Z.mod_small. exact H. Qed.
Lemma read_int z : INT_MIN <= z <= INT_MAX -> cast_int (le_value (le_bytes 4 z)) = z.
Proof.
  intro H. rewrite le_value_bytes. unfold cast_int, U32_MOD. change (256 ^ Z.of_nat 4) with 4294967296.
  rewrite Zplus_mod_idemp_l. apply (cast_int_id z H).
Qed.

Lemma nth_get f off n i d : (i < n)%nat -> nth i (get_bytes f off n) d = f (off + Z.of_nat i).
Proof.
  intro H. unfold get_bytes.
  rewrite (nth_indep _ d (f (off + Z.of_nat 0))) by (rewrite map_length, seq_length; exact H).
  rewrite (map_nth (fun i => f (off + Z.of_nat i)) (seq 0 n) 0%nat i), seq_nth by exact H. reflexivity.
Qed.
Lemma get_length f off n : length (get_bytes f off n) = n.
Proof. unfold get_bytes. now rewrite map_length, seq_length. Qed.

Lemma get_put_same f off bs n : length bs = n -> get_bytes (put_bytes f off bs) off n = bs.
Proof.
  intro H. apply nth_ext with (d := 0) (d' := 0); [now rewrite get_length|].
  intros i Hi. rewrite get_length in Hi. rewrite nth_get by exact Hi. unfold put_bytes, len.
  rewrite H.
  replace ((off <=? off + Z.of_nat i) && (off + Z.of_nat i <? off + Z.of_nat n)) with true by lia.
  f_equal. lia.
Qed.
Lemma get_put_other f off bs x n :
  off + len bs <= x \/ x + Z.of_nat n <= off -> get_bytes (put_bytes f off bs) x n = get_bytes f x n.
Proof.
  intro H. unfold get_bytes. apply map_ext_in. intros i Hi. apply in_seq in Hi. unfold put_bytes.
  destruct ((off <=? x + Z.of_nat i) && (x + Z.of_nat i <? off + len bs)) eqn:E; [lia|reflexivity].
Qed.
Lemma put_other f off bs x : x < off \/ off + len bs <= x -> put_bytes f off bs x = f x.
Proof.
  intro H. unfold put_bytes. destruct ((off <=? x) && (x <? off + len bs)) eqn:E; [lia|reflexivity].
Qed.

(** Alignment: blocks begin at a multiple of 16. *)
Definition al_ok (al : Z) : Prop := al = 1 \/ al = 4 \/ al = 8.
Lemma aligned base off al : base mod 16 = 0 -> al_ok al -> off mod al = 0 -> (base + off) mod al = 0.
Proof. intros Hb [ -> | [ -> | -> ] ] Ho; Z.to_euclidean_division_equations; lia. Qed.

Lemma access_ok b off n al :
  b_base b mod 16 = 0 -> al_ok al -> off mod al = 0 -> 0 <= off -> off + n <= b_size b -> access b off n al = true.
Proof.
  intros Hb Ha Ho H1 H2. unfold access. rewrite (aligned _ _ _ Hb Ha Ho).
  rewrite (proj2 (Z.leb_le _ _) H1), (proj2 (Z.leb_le _ _) H2). reflexivity.
Qed.

Definition put (b : block) (off : Z) (bs : list Z) : block := mkBlock (b_base b) (b_size b) (put_bytes (b_byte b) off bs).

Lemma store_ok b off al bs :
  b_base b mod 16 = 0 -> al_ok al -> off mod al = 0 -> 0 <= off -> off + len bs <= b_size b ->
  store b off al bs = Val (put b off bs).
Proof. intros. unfold store. rewrite access_ok by assumption. reflexivity. Qed.
Lemma load_ok b off al n :
  b_base b mod 16 = 0 -> al_ok al -> off mod al = 0 -> 0 <= off -> off + Z.of_nat n <= b_size b ->
  load b off al n = Val (get_bytes (b_byte b) off n).
Proof. intros. unfold load. rewrite access_ok by assumption. reflexivity. Qed.

Lemma load_int_ok b off z :
  b_base b mod 16 = 0 -> off mod 4 = 0 -> 0 <= off -> off + 4 <= b_size b ->
  get_bytes (b_byte b) off 4 = le_bytes 4 z -> INT_MIN <= z <= INT_MAX -> load_int b off = Val z.
Proof.
  intros Hb Ho H1 H2 G H. unfold load_int.
  rewrite load_ok by (try assumption; right; now left). cbn [cbind]. now rewrite G, read_int.
Qed.
Lemma load_ptr_ok b off z :
  b_base b mod 16 = 0 -> off mod 8 = 0 -> 0 <= off -> off + 8 <= b_size b ->
  get_bytes (b_byte b) off 8 = le_bytes 8 z -> 0 <= z < U64_MOD -> load_ptr b off = Val z.
Proof.
  intros Hb Ho H1 H2 G H. unfold load_ptr.
  rewrite load_ok by (try assumption; right; now right). cbn [cbind]. now rewrite G, read_ptr.
Qed.
Lemma store_int_ok b off z :
  b_base b mod 16 = 0 -> off mod 4 = 0 -> 0 <= off -> off + 4 <= b_size b ->
  store_int b off z = Val (put b off (le_bytes 4 z)).
Proof. intros. apply store_ok; try assumption. right; now left. Qed.

(** Several members. *)
Definition field_ok (size : Z) (x : Z * Z * list Z) : Prop :=
  let '(off, al, bs) := x in al_ok al /\ off mod al = 0 /\ 0 <= off /\ off + len bs <= size.
Fixpoint puts (b : block) (l : list (Z * Z * list Z)) : block :=
  match l with [] => b | (off, _, bs) :: r => puts (put b off bs) r end.
Lemma puts_base b l : b_base (puts b l) = b_base b /\ b_size (puts b l) = b_size b.
Proof. revert b; induction l as [|[[off al] bs] l IH]; intro b; [now split|]. apply (IH (put b off bs)). Qed.
Lemma store_all_ok b l : b_base b mod 16 = 0 -> Forall (field_ok (b_size b)) l -> store_all b l = Val (puts b l).
Proof.
  revert b; induction l as [|[[off al] bs] l IH]; intros b Hb H; [reflexivity|].
  apply Forall_cons_iff in H. destruct H as [A H']. unfold field_ok in A. destruct A as (A1 & A2 & A3 & A4). cbn [store_all puts].
  rewrite store_ok by assumption. cbn [cbind]. apply IH; assumption.
Qed.
Lemma store_all_bad b l1 off al bs l2 :
  access (puts b l1) off (len bs) al = false -> store_all b (l1 ++ (off, al, bs) :: l2) = UB.
Proof.
  revert b; induction l1 as [|[[o a] s] l1 IH]; intros b H; cbn [app store_all puts] in *.
  - unfold store. now rewrite H.
  - unfold store. destruct (access b o (len s) a); [|reflexivity]. cbn [cbind]. apply IH, H.
Qed.
