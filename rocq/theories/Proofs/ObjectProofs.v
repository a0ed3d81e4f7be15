(** An option object in memory behaves as a count and arrays of values. *)
From Coq Require Import ZArith Bool List Lia ZifyBool.
From Verif.Base Require Import CInt.
From Verif.Model Require Import ArgObject.
From Verif.Spec Require Import ObjectSpec.
From Verif.Proofs Require Import ObjectMem.
Import ListNotations.
Open Scope Z_scope.

(** ** Layout *)
Definition off (K : kind) (m : Z) (j : nat) : Z :=
  match K, j with
  | KLit, _ => 104
  | KDbl, _ => 120
  | KRex, _ => 128
  | KFile, O => 128
  | KFile, S O => 128 + 8 * m
  | KFile, _ => 128 + 16 * m
  | KDate, _ => 120
  | KEnd, O => 128
  | KEnd, S O => 128 + 4 * m
  | KEnd, _ => 128 + 12 * m
  | _, _ => 112
  end.
Definition total (K : kind) (m : Z) : Z :=
  match K with
  | KLit => 104 | KInt => 112 + 4 * m | KDbl => 120 + 8 * m | KStr => 112 + 8 * m | KRex => 128 + 8 * m
  | KFile => 128 + 24 * m | KDate => 120 + 56 * m | KEnd => 128 + 20 * m
  end.
Definition max_ok (K : kind) (m : Z) : Prop :=
  0 <= m <= INT_MAX /\ (K = KDbl -> m < INT_MAX) /\ (K = KEnd -> Z.even m = true).

Lemma nbytes_total K m : 0 <= m <= INT_MAX -> (K = KDbl -> m < INT_MAX) -> nbytes K m = Val (total K m).
Proof.
  unfold INT_MAX. intros H D.
  assert (E : size_t m = m) by (apply cast_u64_id; unfold U64_MOD; lia).
  destruct K; cbn [nbytes total]; rewrite ?E; try reflexivity;
    try (f_equal; unfold size_t; rewrite cast_u64_id; [lia|unfold U64_MOD; lia]).
  specialize (D eq_refl). unfold int_op, in_int, INT_MIN, INT_MAX.
  replace ((-2147483648 <=? m + 1) && (m + 1 <=? 2147483647)) with true by lia. cbn [cbind]. f_equal.
  assert (E' : size_t (m + 1) = m + 1) by (apply cast_u64_id; unfold U64_MOD; lia). rewrite E'.
  unfold size_t; rewrite cast_u64_id; [lia|unfold U64_MOD; lia].
Qed.

Lemma start_off K p m j : p mod 16 = 0 -> (j < arrays K)%nat -> start K p m j = p + off K m j.
Proof.
  intros Hp Hj. destruct K; cbn [arrays] in Hj; destruct j as [|[|[|j]]]; try lia; cbn [start off struct_size]; try lia.
  assert ((p + 112) mod 8 = 0) by (Z.to_euclidean_division_equations; lia). lia.
Qed.

Ltac layout := 
  match goal with
  | |- context[off ?K _ _] => destruct K
  | |- context[total ?K _] => destruct K
  end; cbn [off total elem arrays elem_align pointer_at count_at struct_size] in *.

Lemma off_in K m j i :
  max_ok K m -> (j < arrays K)%nat -> 0 <= i < m ->
  128 <= off K m j + 24 /\ pointer_at K (arrays K - 1) + 8 <= off K m j /\ count_at K + 4 <= off K m j /\
  off K m j + i * elem K j + elem K j <= total K m /\ (off K m j + i * elem K j) mod elem_align K j = 0 /\
  al_ok (elem_align K j) /\ 0 < elem K j.
Proof.
  unfold max_ok, INT_MAX, al_ok. intros (H & D & V) Hj Hi.
  destruct K; cbn [arrays] in Hj; destruct j as [|[|[|j]]]; try lia;
    cbn [off total elem elem_align pointer_at count_at arrays Nat.sub Z.of_nat Pos.of_succ_nat] in *;
    repeat split; try lia; try (Z.to_euclidean_division_equations; lia).
  all: specialize (V eq_refl); apply Z.even_spec in V; destruct V as [k ->]; Z.to_euclidean_division_equations; lia.
Qed.

Lemma off_disjoint K m j i j' i' :
  max_ok K m -> (j < arrays K)%nat -> (j' < arrays K)%nat -> 0 <= i < m -> 0 <= i' < m -> (j, i) <> (j', i') ->
  off K m j + i * elem K j + elem K j <= off K m j' + i' * elem K j' \/
  off K m j' + i' * elem K j' + elem K j' <= off K m j + i * elem K j.
Proof.
  unfold max_ok, INT_MAX. intros (H & D & V) Hj Hj' Hi Hi' N.
  assert (N' : j <> j' \/ i <> i') by (destruct (Nat.eq_dec j j') as [->|]; [right; congruence|now left]).
  destruct K; cbn [arrays] in *; destruct j as [|[|[|j]]]; try lia; destruct j' as [|[|[|j']]]; try lia;
    cbn [off elem] in *; lia.
Qed.

Lemma total_bounds K m : 0 <= m -> 104 <= total K m /\ (K <> KLit -> count_at K + 4 <= total K m /\ pointer_at K (arrays K - 1) + 8 <= total K m)
   /\ count_at K + 4 <= total K m.
Proof. intros. destruct K; cbn [total count_at pointer_at arrays Nat.sub Z.of_nat Pos.of_succ_nat]; repeat split; intros; try lia; congruence. Qed.

(** ** The invariant *)
Record rep (K : kind) (base m n : Z) (b : block) (o : object) : Prop := mkRep {
  r_base : b_base b = base;
  r_size : b_size b = total K m;
  r_min : get_bytes (b_byte b) 40 4 = le_bytes 4 n;
  r_max : get_bytes (b_byte b) 44 4 = le_bytes 4 m;
  r_count : get_bytes (b_byte b) (count_at K) 4 = le_bytes 4 (o_count o);
  r_ptr : forall j, (j < arrays K)%nat -> get_bytes (b_byte b) (pointer_at K j) 8 = le_bytes 8 (base + off K m j);
  r_entry : forall j i, (j < arrays K)%nat -> 0 <= i < m ->
    get_bytes (b_byte b) (off K m j + i * elem K j) (Z.to_nat (elem K j)) = o_entry o j i }.

Section Rep.
  Variables (K : kind) (base m n : Z).
  Hypothesis Hm : max_ok K m.
  Hypothesis Hn : INT_MIN <= n <= INT_MAX.
  Hypothesis Ha : allocated base (total K m).

  Lemma base16 : base mod 16 = 0. Proof. apply Ha. Qed.
  Lemma b16 b o : rep K base m n b o -> b_base b mod 16 = 0.
  Proof. intro R. rewrite (r_base _ _ _ _ _ _ R). apply base16. Qed.
  Lemma ptr_range j : (j < arrays K)%nat -> 0 <= base + off K m j < U64_MOD.
  Proof.
    intro Hj. destruct Ha as (A1 & A2 & A3). destruct Hm as (B & _). unfold U64_MOD.
    destruct K; cbn [arrays] in Hj; destruct j as [|[|[|j]]]; try lia; cbn [off total] in *; lia.
  Qed.

  Lemma rep_count b o : rep K base m n b o -> INT_MIN <= o_count o <= INT_MAX -> load_int b (count_at K) = Val (o_count o).
  Proof.
    intros R H. apply load_int_ok; [apply (b16 _ _ R)| | | |apply R|exact H]; [destruct K; reflexivity|destruct K; cbn; lia|].
    rewrite (r_size _ _ _ _ _ _ R). apply total_bounds. apply Hm.
  Qed.
  Lemma rep_max b o : rep K base m n b o -> load_int b 44 = Val m.
  Proof.
    intros R. apply load_int_ok; [apply (b16 _ _ R)|reflexivity|lia| |apply R|].
    - rewrite (r_size _ _ _ _ _ _ R). pose proof (proj1 (total_bounds K m (proj1 (proj1 Hm)))). lia.
    - destruct Hm as (B & _). unfold INT_MIN. lia.
  Qed.
  Lemma rep_min b o : rep K base m n b o -> load_int b 40 = Val n.
  Proof.
    intros R. apply load_int_ok; [apply (b16 _ _ R)|reflexivity|lia| |apply R|exact Hn].
    rewrite (r_size _ _ _ _ _ _ R). pose proof (proj1 (total_bounds K m (proj1 (proj1 Hm)))). lia.
  Qed.
  Lemma pointer_le j : (j < arrays K)%nat -> 0 <= pointer_at K j /\ pointer_at K j mod 8 = 0 /\ pointer_at K j <= pointer_at K (arrays K - 1) /\
    48 <= pointer_at K j /\ pointer_at K j + 8 <= total K m /\ (count_at K + 4 <= pointer_at K j).
  Proof.
    intro Hj. destruct Hm as (B & _).
    destruct K; cbn [arrays] in Hj; destruct j as [|[|[|j]]]; try lia; cbn [pointer_at total arrays Nat.sub count_at Z.of_nat Pos.of_succ_nat]; 
      repeat split; try lia; try reflexivity; destruct Hm; cbn in *; lia.
  Qed.
  Lemma rep_ptr b o j : rep K base m n b o -> (j < arrays K)%nat -> load_ptr b (pointer_at K j) = Val (base + off K m j).
  Proof.
    intros R Hj. destruct (pointer_le j Hj) as (P1 & P2 & P3 & P4 & P5 & P6).
    apply load_ptr_ok; [apply (b16 _ _ R)|exact P2|exact P1| |apply (r_ptr _ _ _ _ _ _ R _ Hj)|apply ptr_range, Hj].
    rewrite (r_size _ _ _ _ _ _ R). exact P5.
  Qed.
  Lemma rep_entry b o j i : rep K base m n b o -> (j < arrays K)%nat -> 0 <= i < m -> entry_of K b j i = Val (o_entry o j i).
  Proof.
    intros R Hj Hi. unfold entry_of. rewrite (rep_ptr _ _ _ R Hj). cbn [cbind].
    rewrite (r_base _ _ _ _ _ _ R). replace (base + off K m j - base) with (off K m j) by lia.
    destruct (off_in K m j i Hm Hj Hi) as (A1 & A2 & A3 & A4 & A5 & A6 & A7).
    rewrite load_ok; [|apply (b16 _ _ R)|exact A6|exact A5| |].
    - f_equal. apply (r_entry _ _ _ _ _ _ R); assumption.
    - assert (0 <= i * elem K j) by (apply Z.mul_nonneg_nonneg; lia). lia.
    - rewrite (r_size _ _ _ _ _ _ R). rewrite Z2Nat.id by lia. lia.
  Qed.

  (** Storing one entry. *)
  Definition set_one (o : object) (j : nat) (i : Z) (v : list Z) : object :=
    mkObject (o_count o) (fun j' k => if Nat.eqb j' j && (k =? i) then v else o_entry o j' k).
  Lemma rep_store b o j i v :
    rep K base m n b o -> (j < arrays K)%nat -> 0 <= i < m -> len v = elem K j ->
    exists b', store_elem K b j i v = Val b' /\ rep K base m n b' (set_one o j i v) /\
               (forall x, x < 96 -> b_byte b' x = b_byte b x).
  Proof.
    intros R Hj Hi Hv. destruct (off_in K m j i Hm Hj Hi) as (A1 & A2 & A3 & A4 & A5 & A6 & A7).
    assert (A8 : 0 <= i * elem K j) by (apply Z.mul_nonneg_nonneg; lia).
    exists (put b (off K m j + i * elem K j) v).
    assert (C : 44 <= count_at K /\ 96 <= off K m j) by (destruct Hm as (B & _); unfold INT_MAX in B; destruct K; destruct j as [|[|j]]; cbn [count_at off]; lia).
    split; [|split].
    - unfold store_elem. rewrite (rep_ptr _ _ _ R Hj). cbn [cbind].
      rewrite (r_base _ _ _ _ _ _ R). replace (base + off K m j - base) with (off K m j) by lia.
      apply store_ok; [apply (b16 _ _ R)|exact A6|exact A5|lia|].
      rewrite (r_size _ _ _ _ _ _ R), Hv. lia.
    - constructor; cbn [put b_base b_size b_byte set_one o_count o_entry].
      + apply R.
      + apply R.
      + rewrite get_put_other by lia. apply R.
      + rewrite get_put_other by lia. apply R.
      + rewrite get_put_other by lia. apply R.
      + intros j' Hj'. destruct (pointer_le j' Hj') as (P1 & P2 & P3 & P4 & P5 & P6).
        rewrite get_put_other by lia. apply R, Hj'.
      + intros j' i' Hj' Hi'. destruct (Nat.eqb j' j && (i' =? i)) eqn:E.
        * apply andb_prop in E as [E1 E2]. apply Nat.eqb_eq in E1. apply Z.eqb_eq in E2. subst j' i'.
          apply get_put_same. unfold len in Hv. lia.
        * rewrite get_put_other; [apply R; assumption|]. rewrite Hv.
          assert (N : (j, i) <> (j', i')) by (intro X; inversion X; subst; rewrite Nat.eqb_refl, Z.eqb_refl in E; discriminate).
          destruct (off_in K m j' i' Hm Hj' Hi') as (B1 & B2 & B3 & B4 & B5 & B6 & B7).
          rewrite Z2Nat.id by lia. apply (off_disjoint K m j i j' i' Hm Hj Hj' Hi Hi' N).
    - intros x Hx. cbn. apply put_other. lia.
  Qed.

  (** Two objects that agree where it matters. *)
  Lemma rep_ext b o o' :
    rep K base m n b o -> o_count o = o_count o' ->
    (forall j i, (j < arrays K)%nat -> 0 <= i < m -> o_entry o j i = o_entry o' j i) -> rep K base m n b o'.
  Proof.
    intros R C E. constructor; try apply R.
    - rewrite <- C. apply R.
    - intros j i Hj Hi. rewrite <- E by assumption. now apply R.
  Qed.

  (** Storing a row. *)
  Fixpoint set_row (o : object) (j : nat) (i : Z) (vs : list (list Z)) : object :=
    match vs with [] => o | v :: r => set_row (set_one o j i v) (S j) i r end.
  Lemma rep_row vs : forall b o j i,
    rep K base m n b o -> (j + length vs = arrays K)%nat -> 0 <= i < m ->
    map len vs = map (elem K) (seq j (length vs)) ->
    exists b', store_row K b j i vs = Val b' /\ rep K base m n b' (set_row o j i vs) /\
               (forall x, x < 96 -> b_byte b' x = b_byte b x).
  Proof.
    induction vs as [|v vs IH]; intros b o j i R Hj Hi Hv; cbn [length] in *.
    - exists b. repeat split; try assumption; apply R.
    - cbn [map seq] in Hv. injection Hv as Hv Hvs.
      destruct (rep_store b o j i v R ltac:(lia) Hi Hv) as (b1 & E1 & R1 & X1).
      destruct (IH b1 _ (S j) i R1 ltac:(lia) Hi Hvs) as (b2 & E2 & R2 & X2).
      exists b2. cbn [store_row set_row]. rewrite E1. cbn [cbind]. rewrite E2. split; [reflexivity|]. split; [exact R2|].
      intros x Hx. rewrite X2, X1 by lia. reflexivity.
  Qed.
  Lemma set_row_count vs : forall o j i, o_count (set_row o j i vs) = o_count o.
  Proof. induction vs as [|v vs IH]; intros; [reflexivity|]. cbn [set_row]. now rewrite IH. Qed.
  Lemma set_row_entry vs : forall o j i j' k,
    o_entry (set_row o j i vs) j' k =
    if (Nat.leb j j') && (k =? i) then nth (j' - j) vs (o_entry o j' k) else o_entry o j' k.
  Proof.
    induction vs as [|v vs IH]; intros o j i j' k; cbn [set_row].
    - destruct (Nat.leb j j' && (k =? i)); [|reflexivity]. now destruct (j' - j)%nat.
    - rewrite IH. cbn [set_one o_entry].
      destruct (k =? i) eqn:Ek; [|now rewrite !andb_false_r]. rewrite !andb_true_r.
      destruct (Nat.eqb j' j) eqn:Ej.
      + apply Nat.eqb_eq in Ej. subst j'. rewrite (Nat.leb_refl j), Nat.sub_diag.
        replace (Nat.leb (S j) j) with false by (symmetry; apply Nat.leb_gt; lia). reflexivity.
      + apply Nat.eqb_neq in Ej. destruct (Nat.leb (S j) j') eqn:L.
        * apply Nat.leb_le in L. replace (Nat.leb j j') with true by (symmetry; apply Nat.leb_le; lia).
          replace (j' - j)%nat with (S (j' - S j)) by lia. reflexivity.
        * apply Nat.leb_gt in L. replace (Nat.leb j j') with false by (symmetry; apply Nat.leb_gt; lia). reflexivity.
  Qed.
  Lemma rep_entries b o i vs :
    rep K base m n b o -> 0 <= i < m -> fits K vs ->
    exists b', store_row K b 0 i vs = Val b' /\ rep K base m n b' (set_entries o i vs) /\
               (forall x, x < 96 -> b_byte b' x = b_byte b x).
  Proof.
    intros R Hi Hv. assert (L : length vs = arrays K).
    { unfold fits in Hv. apply (f_equal (@length Z)) in Hv. now rewrite !map_length, seq_length in Hv. }
    unfold fits in Hv. rewrite <- L in Hv.
    destruct (rep_row vs b o 0 i R L Hi Hv) as (b' & E & R' & X). exists b'. split; [exact E|]. split; [|exact X].
    apply (rep_ext _ _ _ R'); [now rewrite set_row_count|]. intros j k _ _. rewrite set_row_entry.
    cbn [Nat.leb set_entries o_entry]. rewrite Nat.sub_0_r. reflexivity.
  Qed.

  (** Setting the count. *)
  Lemma rep_set_count b o c :
    rep K base m n b o ->
    exists b', store_int b (count_at K) c = Val b' /\ rep K base m n b' (mkObject c (o_entry o)) /\
               (forall x, x < 96 -> b_byte b' x = b_byte b x).
  Proof.
    intro R. exists (put b (count_at K) (le_bytes 4 c)).
    assert (C : 96 <= count_at K /\ count_at K mod 4 = 0) by (destruct K; cbn; lia). destruct C as [C1 C2].
    assert (T : count_at K + 4 <= total K m) by (apply total_bounds; apply Hm).
    assert (L : len (le_bytes 4 c) = 4) by apply len_le_bytes.
    split; [|split].
    - apply store_int_ok; [apply (b16 _ _ R)|exact C2|lia|]. rewrite (r_size _ _ _ _ _ _ R). exact T.
    - constructor; cbn [put b_base b_size b_byte o_count o_entry].
      + apply R.
      + apply R.
      + rewrite get_put_other by lia. apply R.
      + rewrite get_put_other by lia. apply R.
      + apply get_put_same, le_bytes_length.
      + intros j Hj. destruct (pointer_le j Hj) as (P1 & P2 & P3 & P4 & P5 & P6).
        rewrite get_put_other by lia. apply R, Hj.
      + intros j i Hj Hi. destruct (off_in K m j i Hm Hj Hi) as (B1 & B2 & B3 & B4 & B5 & B6 & B7).
        assert (0 <= i * elem K j) by (apply Z.mul_nonneg_nonneg; lia).
        rewrite get_put_other by lia. now apply R.
    - intros x Hx. cbn. apply put_other. lia.
  Qed.
  Lemma rep_bump b o :
    rep K base m n b o -> 0 <= o_count o < m ->
    exists b', bump_count K b (o_count o) = Val b' /\ rep K base m n b' (counted o) /\
               (forall x, x < 96 -> b_byte b' x = b_byte b x).
  Proof.
    intros R C. unfold bump_count, int_op. destruct Hm as (B & _). unfold INT_MAX in B.
    assert (I : in_int (o_count o + 1) = true) by (apply in_int_iff; unfold INT_MIN, INT_MAX; lia).
    rewrite I. cbn [cbind]. apply rep_set_count, R.
  Qed.
End Rep.
