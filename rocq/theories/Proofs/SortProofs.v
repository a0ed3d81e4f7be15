(** The merge sort sorts. *)
From Coq Require Import ZArith Bool List Arith Lia Permutation Sorted.
From Verif.Base Require Import CInt.
From Verif.Model Require Import ArgMemory Sort.
From Verif.Spec Require Import SortSpec.
From Verif.Proofs Require Import ArgMemoryProofs.
Import ListNotations.
Open Scope list_scope.
Open Scope Z_scope.

Local Notation zlen l := (Z.of_nat (List.length l)).

(** Lengths. *)
Ltac sz := repeat (progress (rewrite ?app_length in *; cbn [List.length app] in *)); first [reflexivity | lia].

Section S.
Variable A : Type.
Variable compare : A -> A -> Z.
Variable esize : Z.
Hypothesis Epos : 0 < esize.

Fixpoint merged (l : list A) : list A -> list A :=
  fix go (r : list A) : list A :=
    match l, r with
    | [], _ => r
    | _, [] => l
    | x :: l', y :: r' => if compare x y <? 0 then x :: merged l' r else y :: go r'
    end.
Lemma merged_nil_l r : merged [] r = r.
Proof. destruct r; reflexivity. Qed.
Lemma merged_nil_r l : merged l [] = l.
Proof. destruct l; reflexivity. Qed.
Lemma merged_cons x l y r : merged (x :: l) (y :: r) = if compare x y <? 0 then x :: merged l (y :: r) else y :: merged (x :: l) r.
Proof. reflexivity. Qed.
Lemma merged_perm l : forall r, Permutation (merged l r) (l ++ r).
Proof.
  induction l as [|x l IHl]; [intros r; rewrite merged_nil_l; reflexivity|].
  induction r as [|y r IHr]; [rewrite merged_nil_r, app_nil_r; reflexivity|].
  rewrite merged_cons. destruct (compare x y <? 0).
  - cbn [app]. constructor. apply IHl.
  - rewrite IHr. cbn [app]. rewrite perm_swap. constructor. apply Permutation_middle.
Qed.
Lemma merged_length l r : List.length (merged l r) = (List.length l + List.length r)%nat.
Proof. rewrite (Permutation_length (merged_perm l r)). apply app_length. Qed.

Lemma int_ok z : 0 <= z <= INT_MAX -> int_op z = Val z.
Proof. intros H. unfold int_op. rewrite (proj2 (in_int_iff z)); [reflexivity|]. unfold INT_MIN. lia. Qed.
Lemma prod_ok p n : 0 <= p <= n -> n * esize <= INT_MAX -> 0 <= p * esize <= INT_MAX.
Proof. intros H K. nia. Qed.

Lemma elem_ok pre x post pos n : pos = zlen pre -> zlen (pre ++ x :: post) <= n -> n * esize <= INT_MAX -> elem A esize (pre ++ x :: post) pos = Val x.
Proof.
  intros -> N B. unfold elem. rewrite app_length in N. cbn [List.length] in N. rewrite (int_ok _ (prod_ok (zlen pre) n ltac:(lia) B)). cbn [cbind].
  rewrite (proj2 (Z.ltb_ge _ _)) by lia. rewrite Nat2Z.id, nth_error_app2, Nat.sub_diag by lia. reflexivity.
Qed.
Lemma copy_to_ok (done : list A) k x mpos n : mpos = zlen done -> mpos <= n -> n * esize <= INT_MAX ->
  copy_to A esize (map Some done ++ repeat None (S k)) mpos x = Val (map Some (done ++ [x]) ++ repeat None k).
Proof.
  intros -> N B. unfold copy_to. rewrite (int_ok _ (prod_ok (zlen done) n ltac:(lia) B)). cbn [cbind].
  rewrite (proj2 (Z.ltb_ge _ _)) by lia. rewrite Nat2Z.id. cbn [repeat]. rewrite put_at by apply map_length.
  rewrite map_app, <- app_assoc. reflexivity.
Qed.

Lemma copy_rest_ok n l : n * esize <= INT_MAX -> forall pre post pos done mpos k, pos = zlen pre -> mpos = zlen done ->
  zlen (pre ++ l ++ post) <= n -> zlen done + zlen l <= n ->
  copy_rest A esize (List.length l) (pre ++ l ++ post) pos (map Some done ++ repeat None (List.length l + k)) mpos =
  Val (pos + zlen l, map Some (done ++ l) ++ repeat None k, mpos + zlen l).
Proof.
  intros B. induction l as [|x l IH]; intros pre post pos done mpos k -> -> N M.
  - cbn. rewrite !Z.add_0_r, app_nil_r. reflexivity.
  - cbn [List.length app copy_rest] in *. rewrite (elem_ok pre x (l ++ post) _ n eq_refl N B). cbn [cbind].
    rewrite Nat.add_succ_l, (copy_to_ok done _ x _ n eq_refl ltac:(lia) B). cbn [cbind].
    specialize (IH (pre ++ [x]) post (zlen (pre ++ [x])) (done ++ [x]) (zlen (done ++ [x])) k eq_refl eq_refl).
    rewrite <- !app_assoc in IH. cbn [app] in IH. rewrite !app_length in IH. cbn [List.length] in IH.
    replace (zlen pre + 1) with (Z.of_nat (List.length pre + 1)) by lia. replace (zlen done + 1) with (Z.of_nat (List.length done + 1)) by lia.
    rewrite app_length in N. cbn [List.length] in N. rewrite IH by (rewrite ?app_length in *; cbn [List.length] in *; rewrite ?app_length in *; lia).
    f_equal. f_equal; [f_equal|]; lia.
Qed.

Lemma merge_loop_ok n fuel : n * esize <= INT_MAX -> forall P l Q r T done j k ipos jpos mpos,
  (List.length l + List.length r < fuel)%nat -> zlen (P ++ l ++ Q ++ r ++ T) <= n -> zlen done + zlen l + zlen r <= n ->
  ipos = zlen P -> j = zlen P + zlen l - 1 -> jpos = zlen P + zlen l + zlen Q -> k = jpos + zlen r - 1 -> mpos = zlen done ->
  merge_loop A compare esize fuel (P ++ l ++ Q ++ r ++ T) j k ipos jpos (map Some done ++ repeat None (List.length l + List.length r)) mpos =
  Some (Val (map Some (done ++ merged l r))).
Proof.
  intros B. induction fuel as [|fuel IH]; intros P l Q r T done j k ipos jpos mpos F N M -> Ej Ejp Ek ->; [lia|]. cbn [merge_loop].
  destruct l as [|x l], r as [|y r].
  - cbn [List.length] in *. rewrite (proj2 (Z.leb_gt _ _)) by lia. rewrite (proj2 (Z.leb_gt _ _)) by lia. cbn. rewrite !app_nil_r. reflexivity.
  - cbn [List.length] in *. rewrite (proj2 (Z.leb_gt (zlen P) j)) by lia. rewrite (proj2 (Z.leb_le jpos k)) by lia. cbn [orb].
    rewrite (proj2 (Z.ltb_lt j _)) by lia.
    replace (Z.to_nat (k - jpos + 1)) with (List.length (y :: r)) by (cbn [List.length]; lia).
    pose proof (copy_rest_ok n (y :: r) B (P ++ Q) T jpos done (zlen done) 0) as C. change ([] ++ Q ++ (y :: r) ++ T) with (Q ++ (y :: r) ++ T) in *. rewrite (app_assoc P Q) in N |- *.
    change (0 + S (List.length r))%nat with (List.length (y :: r)). rewrite Nat.add_0_r in C. rewrite C by sz; clear C.
    specialize (IH P [] (Q ++ y :: r) [] T (done ++ y :: r) j k (zlen P) (jpos + zlen (y :: r)) (zlen done + zlen (y :: r))).
    cbn [List.length app repeat Nat.add] in IH. rewrite app_length in IH. cbn [List.length] in IH.
    rewrite <- !app_assoc in *. cbn [app] in *. rewrite !app_length in *. cbn [List.length] in *. rewrite ?app_length in *. cbn [List.length] in *.
    cbn [repeat]. rewrite IH by lia. rewrite merged_nil_l. cbn [merged]. rewrite app_nil_r. reflexivity.
  - cbn [List.length] in *. rewrite (proj2 (Z.leb_le (zlen P) j)) by lia. cbn [orb].
    rewrite (proj2 (Z.ltb_ge j _)) by lia. rewrite (proj2 (Z.ltb_lt k _)) by lia.
    replace (Z.to_nat (j - zlen P + 1)) with (List.length (x :: l)) by (cbn [List.length]; lia).
    pose proof (copy_rest_ok n (x :: l) B P (Q ++ [] ++ T) (zlen P) done (zlen done) 0) as C.
    rewrite Nat.add_0_r in *. change (S (List.length l)) with (List.length (x :: l)). rewrite C by sz; clear C.
    specialize (IH (P ++ x :: l) [] Q [] T (done ++ x :: l) j k (zlen P + zlen (x :: l)) jpos (zlen done + zlen (x :: l))).
    cbn [List.length app repeat Nat.add] in IH. rewrite <- !app_assoc in IH. cbn [app] in *. rewrite !app_length in *. cbn [List.length] in *. rewrite ?app_length in *.
    cbn [repeat]. rewrite IH by lia. rewrite merged_nil_r. cbn [merged]. rewrite app_nil_r. reflexivity.
  - cbn [List.length] in *. rewrite (proj2 (Z.leb_le (zlen P) j)) by lia. cbn [orb].
    rewrite (proj2 (Z.ltb_ge j _)) by lia. rewrite (proj2 (Z.ltb_ge k _)) by lia.
    cbn [app]. rewrite (elem_ok P x (l ++ Q ++ y :: r ++ T) _ n eq_refl N B). cbn [cbind].
    replace (P ++ x :: l ++ Q ++ y :: r ++ T) with ((P ++ x :: l ++ Q) ++ y :: r ++ T) by (rewrite <- !app_assoc; cbn [app]; rewrite <- !app_assoc; reflexivity).
    rewrite (elem_ok (P ++ x :: l ++ Q) y (r ++ T) jpos n); [| | |exact B].
    2, 3: sz.
    cbn [cbind]. rewrite merged_cons. destruct (compare x y <? 0).
    + cbn [Nat.add]. rewrite (copy_to_ok done _ x _ n eq_refl ltac:(lia) B). cbn [cbind].
      specialize (IH (P ++ [x]) l Q (y :: r) T (done ++ [x]) j k (zlen P + 1) jpos (zlen done + 1)).
      rewrite <- !app_assoc in *. cbn [app] in *. rewrite <- ?app_assoc in *.
      apply IH; sz.
    + replace (S (List.length l) + S (List.length r))%nat with (S (S (List.length l) + List.length r)) by lia.
      rewrite (copy_to_ok done _ y _ n eq_refl ltac:(lia) B). cbn [cbind].
      specialize (IH P (x :: l) (Q ++ [y]) r T (done ++ [y]) j k (zlen P) (jpos + 1) (zlen done + 1)).
      rewrite <- !app_assoc in *. cbn [app] in *. rewrite <- ?app_assoc in *.
      apply IH; sz.
Qed.

Lemma copy_back_ok n l : n * esize <= INT_MAX -> forall pre old post pos, List.length old = List.length l -> pos = zlen pre -> zlen (pre ++ old ++ post) <= n ->
  copy_back A esize (pre ++ old ++ post) pos (map Some l) = Val (pre ++ l ++ post).
Proof.
  intros B. induction l as [|x l IH]; intros pre old post pos L -> N; destruct old as [|o old]; try discriminate; cbn [map copy_back]; [reflexivity|].
  rewrite app_length in N. cbn [app List.length] in *.
  rewrite (int_ok _ (prod_ok (zlen pre) n ltac:(lia) B)). cbn [cbind]. rewrite (proj2 (Z.ltb_ge _ _)) by lia. rewrite Nat2Z.id, put_mid. cbn [cbind].
  specialize (IH (pre ++ [x]) old post (zlen pre + 1)). rewrite <- !app_assoc in IH. cbn [app] in IH. apply IH; [lia| |].
  - rewrite app_length. cbn. lia.
  - sz.
Qed.

Lemma merge_ok ok n pre l r post h i j k : n * esize <= INT_MAX -> zlen (pre ++ l ++ r ++ post) <= n -> good h ->
  i = zlen pre -> j = i + zlen l - 1 -> k = j + zlen r -> (1 <= List.length l + List.length r)%nat ->
  (merge A compare esize ok (pre ++ l ++ r ++ post) i j k h = Some MPanic /\ ok (h_calls h) = false) \/
  (exists h', merge A compare esize ok (pre ++ l ++ r ++ post) i j k h = Some (MVal (pre ++ merged l r ++ post, h')) /\ h_live h' = h_live h /\ h_calls h' = S (h_calls h)).
Proof.
  intros B N G -> -> -> L. unfold merge. rewrite !app_length in N.
  assert (0 <= esize * (zlen pre + zlen l - 1 + zlen r - zlen pre + 1) <= INT_MAX) as Q.
  { replace (esize * _) with ((zlen l + zlen r) * esize) by lia. apply prod_ok with (n := n); [lia|exact B]. }
  rewrite (int_ok _ Q). cbn [lift obind].
  destruct (xmalloc_cases ok h G) as [(-> & Fa)|(-> & G1)]; cbn [obind]; [left; split; [reflexivity|exact Fa]|right].
  replace (Z.to_nat (zlen pre + zlen l - 1 + zlen r - zlen pre + 1)) with (List.length l + List.length r)%nat by lia.
  pose proof (merge_loop_ok n (Z.to_nat (zlen pre + zlen l - 1 + zlen r - zlen pre + 2)) B pre l [] r post [] (zlen pre + zlen l - 1) (zlen pre + zlen l - 1 + zlen r)
    (zlen pre) (zlen pre + zlen l - 1 + 1) 0) as M. cbn [app map List.length] in M. rewrite !app_length in M.
  rewrite M by lia. cbn [option_map lift obind].
  pose proof (copy_back_ok n (merged l r) B pre (l ++ r) post (zlen pre)) as C. rewrite merged_length, !app_length, <- app_assoc in C.
  rewrite C by lia. cbn [lift obind]. rewrite xfree_top by exact (good_fresh _ G). cbn [obind].
  eexists. split; [reflexivity|]. split; reflexivity.
Qed.

(** ** Order *)
Definition le (x y : A) : Prop := compare x y <= 0.
Lemma merged_sorted l : ordering compare -> forall r, StronglySorted le l -> StronglySorted le r -> StronglySorted le (merged l r).
Proof.
  intros O. induction l as [|x l IHl]; [intros r _ R; rewrite merged_nil_l; exact R|].
  induction r as [|y r IHr]; intros L R; [rewrite merged_nil_r; exact L|]. rewrite merged_cons.
  inversion L as [|? ? L1 L2]; subst. inversion R as [|? ? R1 R2]; subst. destruct (compare x y <? 0) eqn:C.
  - apply Z.ltb_lt in C. constructor; [apply IHl; assumption|]. rewrite Forall_forall in *. intros z I.
    apply (Permutation_in _ (merged_perm l (y :: r))) in I. apply in_app_iff in I. destruct I as [I|[<-|I]].
    + apply L2, I.
    + unfold le. lia.
    + apply (or_transitive _ O x y z); [lia|]. apply R2, I.
  - apply Z.ltb_ge in C. constructor; [apply IHr; assumption|]. rewrite Forall_forall in *. intros z I.
    apply (Permutation_in _ (merged_perm (x :: l) r)) in I.
    assert (compare y x <= 0) as Y. { destruct (Z_lt_le_dec 0 (compare y x)) as [H|H]; [apply (or_opposite _ O) in H; lia|exact H]. }
    cbn [app] in I. destruct I as [<-|I]; [exact Y|]. apply in_app_iff in I. destruct I as [I|I].
    + apply (or_transitive _ O y x z); [exact Y|]. apply L2, I.
    + apply R2, I.
Qed.
Lemma sorted_in_order s : StronglySorted le s -> in_order compare s.
Proof.
  intros H p. revert s H. induction p as [|p IH]; intros s H q x y L E1 E2; (destruct q as [|q]; [lia|]); destruct s as [|z s]; try discriminate; cbn in *; inversion H as [|? ? H1 H2]; subst.
  - injection E1 as <-. rewrite Forall_forall in H2. apply H2. exact (nth_error_In _ _ E2).
  - apply (IH s H1 q); [lia|exact E1|exact E2].
Qed.

Lemma split_list n (l : list A) : (n <= List.length l)%nat -> exists l1 l2, l = l1 ++ l2 /\ List.length l1 = n.
Proof. intros L. exists (firstn n l), (skipn n l). rewrite firstn_skipn, firstn_length. split; [reflexivity|lia]. Qed.

Theorem sort_ok ok n fuel : n * esize <= INT_MAX -> 2 * n <= INT_MAX -> forall pre l post h, (List.length l < fuel)%nat -> zlen (pre ++ l ++ post) <= n -> good h ->
  (arg_mgsort A compare esize ok fuel (pre ++ l ++ post) (zlen pre) (zlen pre + zlen l - 1) h = Some MPanic /\ exists m, ok m = false) \/
  (exists s h', arg_mgsort A compare esize ok fuel (pre ++ l ++ post) (zlen pre) (zlen pre + zlen l - 1) h = Some (MVal (pre ++ s ++ post, h')) /\
     Permutation l s /\ (ordering compare -> StronglySorted le s) /\ h_live h' = h_live h /\ (h_calls h <= h_calls h')%nat).
Proof.
  intros B B2. induction fuel as [|fuel IH]; intros pre l post h F N G; [lia|]. cbn [arg_mgsort].
  destruct (zlen pre <? zlen pre + zlen l - 1) eqn:C.
  - apply Z.ltb_lt in C. rewrite !app_length in N.
    rewrite (int_ok (zlen pre + (zlen pre + zlen l - 1))) by lia. cbn [cbind]. rewrite int_ok by lia. cbn [lift obind].
    set (j := cdiv (zlen pre + (zlen pre + zlen l - 1) - 1) 2).
    assert (exists n1, j + 1 = zlen pre + Z.of_nat n1 /\ (1 <= n1 < List.length l)%nat) as (n1 & Ej & Hn).
    { unfold j, cdiv. rewrite Z.quot_div_nonneg by lia. exists (Z.to_nat (j + 1 - zlen pre)). unfold j, cdiv. rewrite Z.quot_div_nonneg by lia.
      pose proof (Z.div_mod (zlen pre + (zlen pre + zlen l - 1) - 1) 2 ltac:(lia)). pose proof (Z.mod_pos_bound (zlen pre + (zlen pre + zlen l - 1) - 1) 2 ltac:(lia)). lia. }
    clearbody j. destruct (split_list n1 l ltac:(lia)) as (l1 & l2 & -> & L1). rewrite app_length in *.
    replace j with (zlen pre + zlen l1 - 1) by lia.
    pose proof (IH pre l1 (l2 ++ post) h ltac:(lia) ltac:(rewrite !app_length; lia) G) as H1. rewrite <- app_assoc.
    destruct H1 as [(-> & m & O)|(s1 & h1 & -> & P1 & S1 & Lv1 & Lc1)]; cbn [obind]; [left; split; [reflexivity|exists m; exact O]|].
    assert (List.length s1 = List.length l1) as E1 by (symmetry; apply Permutation_length, P1).
    assert (good h1) as G1 by (exact (good_live h h1 G Lv1 Lc1)).
    pose proof (IH (pre ++ s1) l2 post h1 ltac:(lia) ltac:(rewrite !app_length; lia) G1) as H2. rewrite <- app_assoc, !app_length in H2.
    replace (zlen pre + zlen l1 - 1 + 1) with (Z.of_nat (List.length pre + List.length s1)) by lia.
    replace (zlen pre + Z.of_nat (List.length l1 + List.length l2) - 1) with (Z.of_nat (List.length pre + List.length s1) + zlen l2 - 1) by lia.
    destruct H2 as [(-> & m & O)|(s2 & h2 & -> & P2 & S2 & Lv2 & Lc2)]; cbn [obind]; [left; split; [reflexivity|exists m; exact O]|].
    assert (List.length s2 = List.length l2) as E2 by (symmetry; apply Permutation_length, P2).
    assert (good h2) as G2 by (exact (good_live h1 h2 G1 Lv2 Lc2)). rewrite <- app_assoc.
    destruct (merge_ok ok n pre s1 s2 post h2 (zlen pre) (zlen pre + zlen l1 - 1) (Z.of_nat (List.length pre + List.length s1) + zlen l2 - 1) B) as [(E & O)|(h' & E & Lv & Lc)];
      try lia; try exact G2; [rewrite !app_length; lia| |]; rewrite E.
    + left. split; [reflexivity|]. exists (h_calls h2). exact O.
    + right. exists (merged s1 s2), h'. split; [reflexivity|]. split; [rewrite merged_perm, P1, P2; reflexivity|].
      split; [intros Or; apply merged_sorted; [exact Or|apply S1, Or|apply S2, Or]|]. split; [congruence|lia].
  - apply Z.ltb_ge in C. right. exists l, h. split; [reflexivity|]. split; [reflexivity|]. split; [|split; [reflexivity|lia]].
    intros _. destruct l as [|x [|y l]]; [constructor|repeat constructor|cbn [List.length] in C; lia].
Qed.
End S.

Lemma c72_sorts : forall A (compare : A -> A -> Z) esize ok pre l post h,
  0 < esize ->
  Z.of_nat (List.length (pre ++ l ++ post)) * esize <= 2147483647 ->
  2 * Z.of_nat (List.length (pre ++ l ++ post)) <= 2147483647 ->
  (NoDup (h_live h) /\ forall i, In i (h_live h) -> (i < h_calls h)%nat) ->
  forall fuel, (List.length l < fuel)%nat ->
  let sorted := arg_mgsort A compare esize ok fuel (pre ++ l ++ post)
    (Z.of_nat (List.length pre)) (Z.of_nat (List.length pre) + Z.of_nat (List.length l) - 1) h in
  (sorted = Some MPanic /\ exists n, ok n = false) \/
  (exists s h', sorted = Some (MVal (pre ++ s ++ post, h')) /\ Permutation l s /\
     (ordering compare -> in_order compare s) /\ h_live h' = h_live h).
Proof.
  intros A compare esize ok pre l post h E B B2 G fuel F. cbv zeta.
  destruct (sort_ok A compare esize E ok _ fuel B B2 pre l post h F (Z.le_refl _) G) as [H|(s & h' & H & P & S & L & _)]; [left; exact H|right].
  exists s, h'. split; [exact H|]. split; [exact P|]. split; [|exact L]. intros O. apply sorted_in_order, S, O.
Qed.
Lemma c72_not_stable : exists (x y : nat * nat) h', x <> y /\
  let compare (a b : nat * nat) := Z.of_nat (fst a) - Z.of_nat (fst b) in
  compare x y = 0 /\ arg_mgsort (nat * nat) compare 8 (fun _ => true) 3 [x; y] 0 1 (mkHeap [] 0) = Some (MVal ([y; x], h')).
Proof. exists (0, 1)%nat, (0, 2)%nat. eexists. split; [discriminate|]. split; reflexivity. Qed.
Lemma c72_large : forall ok fuel a h,
  arg_mgsort unit (fun _ _ => 0) 1 ok (S fuel) a 1073741823 1073741825 h = Some MUB.
Proof. reflexivity. Qed.
