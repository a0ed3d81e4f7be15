(** The growable string refines string concatenation. *)
From Coq Require Import ZArith Bool List Ascii Lia.
From Verif.Base Require Import CInt CStr CMem.
From Verif.Model Require Import Dstr.
From Verif.Spec Require Import DstrSpec.
Import ListNotations.
Open Scope list_scope.
Open Scope nat_scope.

(** * Blocks *)

Lemma bytes_length s : List.length (bytes s) = List.length s.
Proof. apply map_length. Qed.

Lemma bytes_app s t : bytes (s ++ t) = bytes s ++ bytes t.
Proof. apply map_app. Qed.

Lemma terminated_length s : List.length (terminated s) = S (List.length s).
Proof. unfold terminated. rewrite app_length, bytes_length. cbn. lia. Qed.

Lemma zeroed_length n : List.length (zeroed n) = n.
Proof. apply repeat_length. Qed.

Lemma no_nul_cons c s : no_nul (c :: s) <-> c <> NUL /\ no_nul s.
Proof. unfold no_nul. cbn. split; intuition congruence. Qed.

Lemma no_nul_app s t : no_nul (s ++ t) <-> no_nul s /\ no_nul t.
Proof. unfold no_nul. rewrite in_app_iff. tauto. Qed.

Lemma no_nul_firstn n s : no_nul s -> no_nul (firstn n s).
Proof. unfold no_nul. intros H I. apply H. rewrite <- (firstn_skipn n s). apply in_app_iff; auto. Qed.

(** The block holds the C string [t]. *)
Definition holds (b : block) (t : str) : Prop := exists r, b = bytes t ++ Some NUL :: r.

Lemma cstr_holds t : no_nul t -> forall r, cstr (bytes t ++ Some NUL :: r) = Val t.
Proof.
  induction t as [|c t IH]; intros N r; cbn.
  - reflexivity.
  - apply no_nul_cons in N as [N1 N2]. rewrite (proj2 (aeqb_neq c NUL) N1).
    unfold bytes in IH. rewrite (IH N2). reflexivity.
Qed.

Lemma holds_cstr b t : no_nul t -> holds b t -> cstr b = Val t.
Proof. intros N [r ->]. apply cstr_holds, N. Qed.

Lemma cstr_upto t r : cstr (bytes t ++ Some NUL :: r) = Val (upto_nul t).
Proof.
  induction t as [|c t IH]; cbn; [reflexivity|].
  destruct (aeqb c NUL); [reflexivity|]. unfold bytes in IH. rewrite IH. reflexivity.
Qed.

Lemma upto_no_nul t : no_nul (upto_nul t).
Proof.
  induction t as [|c t IH]; cbn; [intros []|].
  destruct (aeqb c NUL) eqn:E; [intros []|].
  apply no_nul_cons. split; [apply aeqb_neq, E|exact IH].
Qed.

Lemma upto_id t : no_nul t -> upto_nul t = t.
Proof.
  induction t as [|c t IH]; intros N; cbn; [reflexivity|].
  apply no_nul_cons in N as [N1 N2]. rewrite (proj2 (aeqb_neq c NUL) N1), IH; auto.
Qed.

Lemma upto_le t : List.length (upto_nul t) <= List.length t.
Proof. induction t as [|c t IH]; cbn; [lia|]. destruct (aeqb c NUL); cbn; lia. Qed.

(** What is read back from a truncated text. *)
Lemma upto_firstn n t :
  upto_nul (firstn n t) = firstn n (upto_nul t).
Proof.
  revert n; induction t as [|c t IH]; intros [|n]; cbn; try reflexivity.
  destruct (aeqb c NUL); cbn; [reflexivity|]. rewrite IH. reflexivity.
Qed.

Lemma store_val b off w :
  off + List.length w <= List.length b ->
  store b off w = Val (firstn off b ++ w ++ skipn (off + List.length w) b).
Proof. intros H. unfold store. rewrite (proj2 (Nat.leb_le _ _) H). reflexivity. Qed.

Lemma store_length b off w b' : store b off w = Val b' -> List.length b' = List.length b.
Proof.
  unfold store. destruct (off + List.length w <=? List.length b) eqn:E; [|discriminate].
  apply Nat.leb_le in E. intros H; injection H as <-.
  rewrite !app_length, firstn_length, skipn_length. lia.
Qed.

Lemma skipn_repeat {A} (x : A) k n : skipn k (repeat x n) = repeat x (n - k).
Proof.
  revert n; induction k as [|k IH]; intros [|n]; cbn; try reflexivity. apply IH.
Qed.

(** Writing a string at the end of a zero padded text. *)
Lemma store_padded t k w :
  List.length w <= k ->
  store (bytes t ++ zeroed k) (List.length t) w = Val (bytes t ++ w ++ zeroed (k - List.length w)).
Proof.
  intros H. rewrite store_val by (rewrite app_length, bytes_length, zeroed_length; lia).
  rewrite firstn_app, bytes_length, Nat.sub_diag. cbn [firstn]. rewrite app_nil_r.
  rewrite <- (bytes_length t) at 1. rewrite firstn_all.
  rewrite skipn_app, bytes_length.
  replace (List.length t + List.length w - List.length t) with (List.length w) by lia.
  rewrite skipn_all2 by (rewrite bytes_length; lia). cbn [app].
  unfold zeroed. rewrite skipn_repeat. reflexivity.
Qed.

Lemma zeroed_holds t k : 1 <= k -> holds (bytes t ++ zeroed k) t.
Proof. intros H. destruct k; [lia|]. exists (zeroed k). reflexivity. Qed.

(** * The heap *)

Lemma nth_upd_same {A} i (x : A) l : i < List.length l -> nth_error (upd i x l) i = Some x.
Proof.
  revert i; induction l as [|y l IH]; intros [|i]; cbn; intros H; try lia; try reflexivity.
  apply IH. lia.
Qed.

Lemma nth_upd_other {A} i j (x : A) l : i <> j -> nth_error (upd i x l) j = nth_error l j.
Proof.
  revert i j; induction l as [|y l IH]; intros [|i] [|j]; cbn; intros H; try lia; try reflexivity.
  apply IH. lia.
Qed.

Lemma upd_length {A} i (x : A) l : List.length (upd i x l) = List.length l.
Proof. revert i; induction l as [|y l IH]; intros [|i]; cbn; auto. Qed.

(** Only block [i] is live, or none is. *)
Definition only (h : list (option block)) (i : nat) (b : block) : Prop :=
  forall j c, nth_error h j = Some (Some c) <-> j = i /\ c = b.
Definition none (h : list (option block)) : Prop :=
  forall j c, nth_error h j <> Some (Some c).

Lemma none_freed h : none h -> all_freed h.
Proof.
  intros N. apply Forall_forall. intros b I. apply In_nth_error in I as [j J].
  destruct b; [|reflexivity]. exfalso. eapply N; eauto.
Qed.

Lemma only_nth h i b : only h i b -> nth_error h i = Some (Some b).
Proof. intros O. apply O. auto. Qed.

Lemma only_free h i b : only h i b -> none (upd i None h).
Proof.
  intros O j c H. destruct (Nat.eq_dec i j) as [<-|E].
  - rewrite nth_upd_same in H; [discriminate|].
    apply nth_error_Some. rewrite (only_nth _ _ _ O). discriminate.
  - rewrite nth_upd_other in H by exact E. apply O in H as [H _]. congruence.
Qed.

Lemma only_upd h i b b' : only h i b -> only (upd i (Some b') h) i b'.
Proof.
  intros O j c. destruct (Nat.eq_dec i j) as [<-|E].
  - rewrite nth_upd_same.
    + split; [intros H; injection H as ->; auto|intros [_ ->]; auto].
    + apply nth_error_Some. rewrite (only_nth _ _ _ O). discriminate.
  - rewrite nth_upd_other by exact E. split; [intros H; apply O in H as [H _]; congruence|].
    intros [H _]; congruence.
Qed.

Lemma nth_snoc {A} (h : list A) x j y :
  nth_error (h ++ [x]) j = Some y <-> nth_error h j = Some y \/ j = List.length h /\ y = x.
Proof.
  destruct (lt_dec j (List.length h)) as [L|L].
  - rewrite nth_error_app1 by exact L. split; [auto|]. intros [H|[H _]]; [exact H|lia].
  - rewrite nth_error_app2 by lia.
    destruct (j - List.length h) as [|m] eqn:E; cbn.
    + split; [intros H; injection H as ->; right; split; [lia|reflexivity]|].
      intros [H|[_ ->]]; [|reflexivity].
      assert (nth_error h j <> None) as S by congruence. apply nth_error_Some in S. lia.
    + split; [destruct m; discriminate|]. intros [H|[-> _]]; [|lia].
      assert (nth_error h j <> None) as S by congruence. apply nth_error_Some in S. lia.
Qed.

Lemma none_malloc h b : none h -> only (h ++ [Some b]) (List.length h) b.
Proof.
  intros N j c. rewrite nth_snoc. split.
  - intros [H|[-> H]]; [exfalso; eapply N; eauto|]. injection H as ->. auto.
  - intros [-> ->]. auto.
Qed.

(** Allocate while one block is live, then free the old one. *)
Lemma only_replace h i b c :
  only h i b -> only (upd i None (h ++ [Some c])) (List.length h) c.
Proof.
  intros O j x.
  assert (i < List.length h) as L
    by (apply nth_error_Some; rewrite (only_nth _ _ _ O); discriminate).
  destruct (Nat.eq_dec i j) as [<-|E].
  - rewrite nth_upd_same by (rewrite app_length; lia).
    split; [discriminate|]. intros [H _]. lia.
  - rewrite nth_upd_other by exact E. rewrite nth_snoc. split.
    + intros [H|[-> H]]; [|injection H as ->; auto]. apply O in H as [H _]. congruence.
    + intros [-> ->]. auto.
Qed.

Lemma nth_last {A} (h : list A) x : nth_error (h ++ [x]) (List.length h) = Some x.
Proof. apply nth_snoc. auto. Qed.

Lemma upd_last {A} (h : list A) x y : upd (List.length h) y (h ++ [x]) = h ++ [y].
Proof. induction h; cbn; [reflexivity|]. f_equal; auto. Qed.

(** * The invariant *)
Open Scope Z_scope.

Inductive where_ (d : dstr) (t : str) : Prop :=
| InSbuf (D : d_data d = PSbuf) (F : d_dynamic d = false) (A : d_append d = None) (S : d_size d = 0)
         (H : holds (d_sbuf d) t) (N : none (d_heap d))
| InStatic (D : d_data d = PStatic t) (F : d_dynamic d = false) (A : d_append d = None) (S : d_size d = 0)
         (N : none (d_heap d))
| InDynamic i b (D : d_data d = PBlock i) (F : d_dynamic d = true) (A : d_append d = None) (S : d_size d = 0)
         (H : holds b t) (O : only (d_heap d) i b)
| InAppend i k (D : d_data d = PBlock i) (F : d_dynamic d = false) (A : d_append d = Some i)
         (S : d_size d = len t + Z.of_nat k) (K : (1 <= k)%nat)
         (U : 0 <= d_used d <= len t)
         (O : only (d_heap d) i (bytes t ++ zeroed k)).

Definition inv (d : dstr) (t : str) : Prop :=
  List.length (d_sbuf d) = 201%nat /\ no_nul t /\ where_ d t.

Lemma len_nonneg s : 0 <= len s. Proof. unfold len. lia. Qed.
Lemma len_app s t : len (s ++ t) = len s + len t.
Proof. unfold len. rewrite app_length. lia. Qed.

Lemma inv_create : inv arg_dstr_create [].
Proof.
  split; [reflexivity|]. split; [intros []|].
  apply InSbuf; try reflexivity.
  - exists (zeroed 200). reflexivity.
  - intros j c. cbn. destruct j; discriminate.
Qed.

Lemma inv_cstr d t : inv d t -> arg_dstr_cstr d = Val t.
Proof.
  intros (L & N & W). unfold arg_dstr_cstr.
  inversion W; rewrite D; cbn [deref].
  - cbn [cbind]. apply holds_cstr; auto.
  - cbn [cbind]. unfold terminated. apply cstr_holds; auto.
  - rewrite (only_nth _ _ _ O). cbn [cbind]. apply holds_cstr; auto.
  - rewrite (only_nth _ _ _ O). cbn [cbind]. apply holds_cstr; auto. apply zeroed_holds; auto.
Qed.

Lemma inv_length d t : inv d t -> len t < LIMIT -> data_length d = Val (len t).
Proof.
  intros I L. unfold data_length. rewrite (inv_cstr _ _ I). cbn [cbind].
  rewrite cast_int_id; [reflexivity|]. pose proof (len_nonneg t).
  unfold INT_MIN, INT_MAX, LIMIT in *. lia.
Qed.

Lemma int_op_val z : INT_MIN <= z <= INT_MAX -> int_op z = Val z.
Proof. intros H. unfold int_op. rewrite (proj2 (in_int_iff z) H). reflexivity. Qed.

(** * Releasing *)

(** Freeing what the object owns, whatever [data] points to afterwards. *)
Lemma free_reset d t :
  inv d t ->
  exists d', cbind (arg_dstr_free d) drop_append = Val d' /\
    d_dynamic d' = false /\ d_sbuf d' = d_sbuf d /\ d_append d' = None /\ d_size d' = 0 /\ none (d_heap d').
Proof.
  intros (L & N & W). unfold arg_dstr_free, drop_append.
  inversion W; rewrite F; cbn [cbind].
  - rewrite A. eauto 10.
  - rewrite A. eauto 10.
  - rewrite D. cbn [free]. rewrite (only_nth _ _ _ O). cbn [cbind].
    unfold set_dynamic, set_heap; cbn [d_append]. rewrite A.
    eexists; split; [reflexivity|]. cbn. repeat (split; [solve [auto]|]). eapply only_free; eauto.
  - rewrite A. rewrite (proj2 (Z.ltb_lt 0 (d_size d))) by (rewrite S; pose proof (len_nonneg t); lia).
    cbn [free]. rewrite (only_nth _ _ _ O). cbn [cbind].
    eexists; split; [reflexivity|]. cbn. repeat (split; [solve [auto]|]). eapply only_free; eauto.
Qed.

Lemma store_head b c : (1 <= List.length b)%nat -> exists r, store b 0 [Some c] = Val (Some c :: r) /\ List.length (Some c :: r) = List.length b.
Proof.
  intros H. destruct b as [|x b]; cbn in H; [lia|].
  exists b. rewrite store_val by (cbn; lia). cbn. auto.
Qed.

Lemma reset_ok d t : inv d t -> exists d', arg_dstr_reset d = Val d' /\ inv d' [] /\ none (d_heap d').
Proof.
  intros I. destruct (free_reset d t I) as (d1 & E & F & B & A & S & N).
  unfold arg_dstr_reset.
  destruct (arg_dstr_free d) as [d0|]; [|discriminate]. cbn [cbind] in E |- *. rewrite E. cbn [cbind].
  destruct I as (L & _).
  cbn [write]. unfold set_data at 1; cbn [d_sbuf]. rewrite B.
  destruct (store_head (d_sbuf d) NUL) as (r & E1 & E2); [lia|].
  rewrite E1. cbn [cbind]. eexists; split; [reflexivity|].
  split; [|exact N].
  split; [cbn [d_sbuf set_sbuf set_data]; lia|]. split; [intros []|].
  apply InSbuf; cbn; auto. exists r. reflexivity.
Qed.

Lemma destroy_ok d t : inv d t -> exists h, arg_dstr_destroy d = Val h /\ all_freed h.
Proof.
  intros I. destruct (reset_ok d t I) as (d' & E & _ & N).
  unfold arg_dstr_destroy. rewrite E. cbn [cbind]. eexists; split; [reflexivity|]. apply none_freed, N.
Qed.

(** * Setting *)

(** The state [arg_dstr_set] leaves before it releases the old string: [d1]
    differs from [d] in [data], [free_proc], the buffer and a new block. *)
Lemma release_none d1 : d_append d1 = None -> d_size d1 = 0 -> none (d_heap d1) -> drop_append d1 = Val d1.
Proof. intros A _ _. unfold drop_append. rewrite A. reflexivity. Qed.

(** No new block was allocated. *)
Lemma release_kept d t d1 :
  inv d t -> d_append d1 = d_append d -> d_size d1 = d_size d -> d_heap d1 = d_heap d ->
  (d_data d1 = PSbuf \/ exists s, d_data d1 = PStatic s) ->
  exists d', release_old (d_dynamic d) (d_data d) d1 = Val d' /\
    d_data d' = d_data d1 /\ d_dynamic d' = d_dynamic d1 /\ d_sbuf d' = d_sbuf d1 /\
    d_append d' = None /\ d_size d' = 0 /\ none (d_heap d').
Proof.
  intros (L & N & W) EA ES EH P. unfold release_old, drop_append.
  inversion W; rewrite F; cbn [andb cbind].
  - rewrite EA, A. eexists; split; [reflexivity|]. rewrite EH. repeat (split; [congruence|]). assumption.
  - rewrite EA, A. eexists; split; [reflexivity|]. rewrite EH. repeat (split; [congruence|]). assumption.
  - rewrite D.
    replace (same_ptr (PBlock i) (d_data d1)) with false by (destruct P as [->|[s ->]]; reflexivity).
    cbn [negb free]. rewrite EH, (only_nth _ _ _ O). cbn [cbind].
    unfold set_heap; cbn [d_append]. rewrite EA, A.
    eexists; split; [reflexivity|]. cbn. rewrite ?EA, ?ES.
    repeat (split; [solve [auto]|]). eapply only_free; eauto.
  - rewrite EA, A, ES. rewrite (proj2 (Z.ltb_lt 0 (d_size d))) by (rewrite S; pose proof (len_nonneg t); lia).
    cbn [free]. rewrite EH, (only_nth _ _ _ O). cbn [cbind].
    eexists; split; [reflexivity|]. cbn. repeat (split; [solve [auto]|]). eapply only_free; eauto.
Qed.

(** A new block was allocated and [data] points to it. *)
Lemma release_new d t d1 b :
  inv d t -> d_append d1 = d_append d -> d_size d1 = d_size d -> d_heap d1 = d_heap d ++ [Some b] ->
  d_data d1 = PBlock (List.length (d_heap d)) ->
  exists d', release_old (d_dynamic d) (d_data d) d1 = Val d' /\
    d_data d' = d_data d1 /\ d_dynamic d' = d_dynamic d1 /\ d_sbuf d' = d_sbuf d1 /\
    d_append d' = None /\ d_size d' = 0 /\ only (d_heap d') (List.length (d_heap d)) b.
Proof.
  intros (L & N & W) EA ES EH P. unfold release_old, drop_append.
  inversion W; rewrite F; cbn [andb cbind].
  - rewrite EA, A. eexists; split; [reflexivity|]. rewrite EH.
    repeat (split; [congruence|]). apply none_malloc; assumption.
  - rewrite EA, A. eexists; split; [reflexivity|]. rewrite EH.
    repeat (split; [congruence|]). apply none_malloc; assumption.
  - assert (i < List.length (d_heap d))%nat as Li
      by (apply nth_error_Some; rewrite (only_nth _ _ _ O); discriminate).
    rewrite D, P. cbn [same_ptr]. rewrite (proj2 (Nat.eqb_neq i (List.length (d_heap d)))) by lia.
    cbn [negb free]. rewrite EH, nth_error_app1, (only_nth _ _ _ O) by exact Li. cbn [cbind].
    unfold set_heap; cbn [d_append]. rewrite EA, A.
    eexists; split; [reflexivity|]. cbn. rewrite ?EA, ?ES.
    repeat (split; [solve [auto | congruence]|]).
    eapply only_replace; eauto.
  - assert (i < List.length (d_heap d))%nat as Li
      by (apply nth_error_Some; rewrite (only_nth _ _ _ O); discriminate).
    rewrite EA, A, ES. rewrite (proj2 (Z.ltb_lt 0 (d_size d))) by (rewrite S; pose proof (len_nonneg t); lia).
    cbn [free]. rewrite EH, nth_error_app1, (only_nth _ _ _ O) by exact Li. cbn [cbind].
    eexists; split; [reflexivity|]. cbn.
    repeat (split; [solve [auto | congruence]|]).
    eapply only_replace; eauto.
Qed.

Lemma set_null_ok d t : inv d t -> exists d', arg_dstr_set_null d = Val d' /\ inv d' [].
Proof.
  intros I. unfold arg_dstr_set_null. cbn [write].
  assert (L : List.length (d_sbuf d) = 201%nat) by apply I.
  destruct (store_head (d_sbuf d) NUL) as (r & E1 & E2); [lia|].
  rewrite E1. cbn [cbind].
  destruct (release_kept d t (set_dynamic false (set_data PSbuf (set_sbuf (Some NUL :: r) d))) I)
    as (d' & E & D & F & B & A & S & N); try reflexivity; [left; reflexivity|].
  exists d'. split; [exact E|].
  split; [rewrite B; cbn [d_sbuf set_sbuf set_data set_dynamic]; lia|]. split; [intros []|].
  apply InSbuf; auto. rewrite B. exists r. reflexivity.
Qed.

Lemma set_static_ok d t s : inv d t -> no_nul s -> exists d', arg_dstr_set_static s d = Val d' /\ inv d' s.
Proof.
  intros I Ns. unfold arg_dstr_set_static.
  assert (L : List.length (d_sbuf d) = 201%nat) by apply I.
  destruct (release_kept d t (set_dynamic false (set_data (PStatic s) d)) I)
    as (d' & E & D & F & B & A & S & N); try reflexivity; [right; eexists; reflexivity|].
  exists d'. split; [exact E|]. split; [rewrite B; exact L|]. split; [exact Ns|].
  apply InStatic; auto.
Qed.

Lemma set_dynamic_ok d t s : inv d t -> no_nul s -> exists d', arg_dstr_set_dynamic s d = Val d' /\ inv d' s.
Proof.
  intros I Ns. unfold arg_dstr_set_dynamic, malloc.
  assert (L : List.length (d_sbuf d) = 201%nat) by apply I.
  match goal with |- exists d', release_old _ _ ?x = _ /\ _ =>
    destruct (release_new d t x (terminated s) I) as (d' & E & D & F & B & A & S & O); try reflexivity end.
  exists d'. split; [exact E|]. split; [rewrite B; exact L|]. split; [exact Ns|].
  apply InDynamic with (i := List.length (d_heap d)) (b := terminated s); auto.
  exists (@nil (option ascii)). reflexivity.
Qed.

Lemma store_whole b s :
  (List.length s < List.length b)%nat ->
  exists r, store b 0 (terminated s) = Val (bytes s ++ Some NUL :: r).
Proof.
  intros H. rewrite store_val by (rewrite terminated_length; lia). cbn [firstn app].
  unfold terminated. rewrite <- app_assoc. eexists. reflexivity.
Qed.

Lemma set_volatile_ok d t s :
  inv d t -> no_nul s -> len s < LIMIT -> exists d', arg_dstr_set_volatile s d = Val d' /\ inv d' s.
Proof.
  intros I Ns Ls. unfold arg_dstr_set_volatile, malloc.
  assert (L : List.length (d_sbuf d) = 201%nat) by apply I.
  pose proof (len_nonneg s) as P.
  rewrite cast_int_id by (unfold LIMIT, INT_MIN, INT_MAX in *; lia).
  unfold ARG_DSTR_SIZE. destruct (200 <? len s) eqn:E.
  - rewrite cast_u32_id by (unfold LIMIT, U32_MOD in *; lia).
    cbn [write set_dynamic set_data d_data deref d_heap set_heap].
    rewrite nth_last. cbn [cbind].
    destruct (store_whole (repeat None (Z.to_nat (len s + 1))) s) as [r ->];
      [rewrite repeat_length; unfold len; lia|].
    cbn [cbind].
    match goal with |- exists d', release_old _ _ ?x = _ /\ _ =>
      destruct (release_new d t x (bytes s ++ Some NUL :: r) I) as (d' & E' & D & F & B & A & S & O);
        try reflexivity end.
    + cbn. rewrite upd_last. reflexivity.
    + exists d'. split; [exact E'|]. split; [rewrite B; exact L|]. split; [exact Ns|].
      apply InDynamic with (i := List.length (d_heap d)) (b := bytes s ++ Some NUL :: r); auto.
      exists r. reflexivity.
  - apply Z.ltb_ge in E.
    cbn [write set_dynamic set_data d_data d_sbuf].
    destruct (store_whole (d_sbuf d) s) as [r Er]; [unfold len in E; lia|].
    rewrite Er. cbn [cbind].
    match goal with |- exists d', release_old _ _ ?x = _ /\ _ =>
      destruct (release_kept d t x I) as (d' & E' & D & F & B & A & S & O); try reflexivity end.
    + left; reflexivity.
    + exists d'. split; [exact E'|].
      split; [rewrite B; cbn [d_sbuf set_sbuf set_data set_dynamic];
              apply store_length in Er; rewrite Er; exact L|].
      split; [exact Ns|].
      apply InSbuf; auto. rewrite B. exists r. reflexivity.
Qed.

(** * Appending *)

(** The append buffer after [setup_append_buf]: room for [n] more bytes. *)
Definition ready (d : dstr) (t : str) (n : Z) : Prop :=
  List.length (d_sbuf d) = 201%nat /\
  exists i k, d_data d = PBlock i /\ d_dynamic d = false /\ d_append d = Some i /\
    d_size d = len t + Z.of_nat k /\ n < Z.of_nat k /\
    0 <= d_used d <= len t /\ only (d_heap d) i (bytes t ++ zeroed k).

Lemma load_padded t k i :
  (1 <= k)%nat -> (i <= List.length t)%nat ->
  exists c, load (bytes t ++ zeroed k) i = Val c /\ (no_nul t -> (c = NUL <-> i = List.length t)).
Proof.
  intros K Li. unfold load. destruct (Nat.eq_dec i (List.length t)) as [->|E].
  - rewrite nth_error_app2 by (rewrite bytes_length; lia).
    rewrite bytes_length, Nat.sub_diag. destruct k; [lia|]. cbn. eexists; split; [reflexivity|]. tauto.
  - rewrite nth_error_app1 by (rewrite bytes_length; lia).
    unfold bytes. rewrite nth_error_map.
    destruct (nth_error t i) as [c|] eqn:Et; [|apply nth_error_None in Et; lia].
    cbn. eexists; split; [reflexivity|]. intros N. split; [|lia].
    intros ->. exfalso. apply N. eapply nth_error_In; eauto.
Qed.

(** The grown size. *)
Lemma grow total :
  0 < total -> total * 2 <= INT_MAX ->
  exists z, (if total <? 100 then Val 200 else int_op (total * 2)) = Val z /\
            total < z <= INT_MAX.
Proof.
  intros H1 H2. destruct (total <? 100) eqn:E.
  - apply Z.ltb_lt in E. exists 200. split; [reflexivity|]. unfold INT_MAX. lia.
  - exists (total * 2). split; [apply int_op_val; unfold INT_MIN; lia|]. lia.
Qed.

(** The second half of setup_append_buf. *)
Lemma setup_tail d t n :
  inv d t -> (data_is_append d = false -> d_append d = None /\ d_size d = 0) ->
  d_used d = len t -> 0 < n -> (n + len t) * 2 <= INT_MAX ->
  exists d',
    cbind (int_op (n + d_used d)) (fun total =>
    cbind (if d_size d <=? total
           then cbind (if total <? 100 then Val 200 else int_op (total * 2)) (fun total =>
                let (i, d1) := malloc (zeroed (Z.to_nat (cast_u32 total))) d in
                cbind (arg_dstr_cstr d1) (fun t =>
                cbind (write (PBlock i) 0 (terminated t) d1) (fun d2 =>
                cbind (match d_append d with Some j => free (PBlock j) d2 | None => Val d2 end) (fun d3 =>
                Val (set_append (Some i) total d3)))))
           else if negb (data_is_append d)
           then match d_append d with
                | Some j => cbind (arg_dstr_cstr d) (fun t => write (PBlock j) 0 (terminated t) d)
                | None => UB
                end
           else Val d) (fun d =>
    cbind (arg_dstr_free d) (fun d =>
    match d_append d with
    | Some i => Val (set_data (PBlock i) d)
    | None => UB
    end))) = Val d' /\ ready d' t n.
Proof.
  intros I NA EU Pn LIM. pose proof (len_nonneg t) as Pt.
  rewrite EU. rewrite int_op_val by (unfold INT_MIN, INT_MAX in *; lia). cbn [cbind].
  destruct (d_size d <=? n + len t) eqn:G.
  - (* a new buffer *)
    destruct (grow (n + len t)) as (z & -> & Z1 & Z2); [lia|lia|]. cbn [cbind].
    unfold malloc.
    rewrite cast_u32_id by (unfold U32_MOD, INT_MAX in *; lia).
    set (nb := zeroed (Z.to_nat z)).
    assert (C : arg_dstr_cstr (set_heap (d_heap d ++ [Some nb]) d) = Val t).
    { pose proof (inv_cstr _ _ I) as C. revert C. unfold arg_dstr_cstr.
      cbn [d_data set_heap]. destruct (d_data d) as [|i|s]; cbn [deref d_heap set_heap d_sbuf]; auto.
      destruct (nth_error (d_heap d) i) as [x|] eqn:Ei; [|discriminate].
      rewrite nth_error_app1, Ei; auto. apply nth_error_Some. congruence. }
    rewrite C. cbn [cbind write deref d_heap set_heap]. rewrite nth_last. cbn [cbind].
    assert (SW : store nb 0 (terminated t) = Val (bytes t ++ zeroed (Z.to_nat z - List.length t))).
    { unfold nb. rewrite store_val by (rewrite terminated_length, zeroed_length; unfold len in *; lia).
      cbn [firstn app]. rewrite terminated_length. cbn [Nat.add].
      unfold zeroed at 1. rewrite skipn_repeat. unfold terminated. rewrite <- app_assoc. f_equal. f_equal.
      replace (Z.to_nat z - List.length t)%nat with (S (Z.to_nat z - S (List.length t))) by (unfold len in *; lia).
      reflexivity. }
    rewrite SW. cbn [cbind]. rewrite upd_last. unfold set_heap at 1 2 3 4; cbn [d_heap].
    set (k := (Z.to_nat z - List.length t)%nat).
    assert (Kz : z = len t + Z.of_nat k) by (unfold k, len in *; lia).
    destruct I as (L & N & W).
    inversion W; rewrite A.
    + cbn [cbind]. unfold arg_dstr_free. cbn [set_append d_dynamic set_heap]. rewrite F. cbn [cbind d_append set_append].
      eexists; split; [reflexivity|]. split; [exact L|].
      exists (List.length (d_heap d)), k. cbn.
      repeat (split; [solve [auto | lia]|]). apply none_malloc; assumption.
    + cbn [cbind]. unfold arg_dstr_free. cbn [set_append d_dynamic set_heap]. rewrite F. cbn [cbind d_append set_append].
      eexists; split; [reflexivity|]. split; [exact L|].
      exists (List.length (d_heap d)), k. cbn.
      repeat (split; [solve [auto | lia]|]). apply none_malloc; assumption.
    + assert (i < List.length (d_heap d))%nat as Li
        by (apply nth_error_Some; rewrite (only_nth _ _ _ O); discriminate).
      cbn [cbind]. unfold arg_dstr_free. cbn [set_append d_dynamic set_heap d_data]. rewrite F, D.
      cbn [free d_heap set_append set_heap].
      rewrite nth_error_app1, (only_nth _ _ _ O) by exact Li.
      cbn [cbind d_append set_append set_heap set_dynamic].
      eexists; split; [reflexivity|]. split; [exact L|].
      exists (List.length (d_heap d)), k. cbn.
      repeat (split; [solve [auto | lia]|]). eapply only_replace; eauto.
    + assert (i < List.length (d_heap d))%nat as Li
        by (apply nth_error_Some; rewrite (only_nth _ _ _ O); discriminate).
      cbn [free d_heap set_heap].
      rewrite nth_error_app1, (only_nth _ _ _ O) by exact Li.
      cbn [cbind]. unfold arg_dstr_free. cbn [set_append d_dynamic set_heap]. rewrite F. cbn [cbind d_append set_append].
      eexists; split; [reflexivity|]. split; [exact L|].
      exists (List.length (d_heap d)), k. cbn.
      repeat (split; [solve [auto | lia]|]). eapply only_replace; eauto.
  - (* there is room *)
    apply Z.leb_gt in G. destruct I as (L & N & W).
    destruct (data_is_append d) eqn:DA; cbn [negb].
    2:{ destruct (NA eq_refl) as [_ S0]. lia. }
    inversion W; try (unfold data_is_append in DA; rewrite D, ?A in DA; discriminate).
    cbn [cbind]. unfold arg_dstr_free. rewrite F. cbn [cbind]. rewrite A.
    eexists; split; [reflexivity|]. split; [exact L|].
    exists i, k. cbn. repeat (split; [solve [auto | lia]|]). exact O.
Qed.

Lemma setup_ok d t n :
  inv d t -> len t < LIMIT -> 0 < n -> (n + len t) * 2 <= INT_MAX ->
  exists d', setup_append_buf n d = Val d' /\ ready d' t n.
Proof.
  intros I Lt Pn LIM. unfold setup_append_buf.
  assert (IU : inv (set_used (len t) d) t).
  { destruct I as (L & N & W). split; [exact L|]. split; [exact N|].
    pose proof (len_nonneg t).
    inversion W; [eapply InSbuf|eapply InStatic|eapply InDynamic|eapply InAppend]; cbn; eauto. lia. }
  destruct (data_is_append d) eqn:DA; cbn [negb].
  - (* data is the append buffer *)
    pose proof I as (L & N & W).
    inversion W; try (unfold data_is_append in DA; rewrite D, ?A in DA; discriminate).
    rewrite D. cbn [deref]. rewrite (only_nth _ _ _ O). cbn [cbind].
    rewrite (proj2 (Z.ltb_ge (d_used d) 0)) by lia.
    destruct (load_padded t k (Z.to_nat (d_used d))) as (c & -> & Cn); [exact K|unfold len in U; lia|].
    cbn [cbind]. specialize (Cn N).
    destruct (aeqb c NUL) eqn:Ec.
    + apply aeqb_eq in Ec. apply Cn in Ec.
      cbn [cbind]. apply setup_tail; auto; [intros; congruence|unfold len in *; lia].
    + rewrite (inv_length _ _ I Lt). cbn [cbind].
      apply setup_tail; auto. unfold data_is_append in *. cbn. rewrite DA. intros; discriminate.
  - assert (NS : d_append d = None /\ d_size d = 0).
    { destruct I as (L & N & W). inversion W; auto.
      unfold data_is_append in DA. rewrite D, A, Nat.eqb_refl in DA. discriminate. }
    destruct NS as [NA S0]. rewrite S0. cbn [Z.ltb Z.compare cbind].
    rewrite (inv_length _ _ I Lt). cbn [cbind].
    apply setup_tail; auto.
Qed.

Lemma ready_cstr d t n : 0 <= n -> no_nul t -> ready d t n -> arg_dstr_cstr d = Val t.
Proof.
  intros P N (L & i & k & D & F & A & S & K & U & O).
  unfold arg_dstr_cstr. rewrite D. cbn [deref]. rewrite (only_nth _ _ _ O). cbn [cbind].
  apply holds_cstr; auto. apply zeroed_holds. lia.
Qed.

(** Writing the new text at the end. *)
Lemma append_ready d t n s w :
  no_nul t -> no_nul s -> ready d t n -> len s < n -> len w <= n ->
  (w = s \/ s = [] /\ w = [NUL]) ->
  exists d', write (d_data d) (List.length t) (bytes w) d = Val d' /\ inv d' (t ++ s).
Proof.
  intros Nt Ns (L & i & k & D & F & A & S & K & U & O) Ls Lw Hw.
  rewrite D. cbn [write deref]. rewrite (only_nth _ _ _ O). cbn [cbind].
  rewrite store_padded by (rewrite bytes_length; unfold len in *; lia).
  cbn [cbind]. eexists; split; [reflexivity|].
  split; [exact L|]. split; [apply no_nul_app; auto|].
  destruct Hw as [->|[-> ->]].
  - apply InAppend with (i := i) (k := (k - List.length s)%nat); cbn.
    + first [reflexivity | exact D].
    + exact F.
    + exact A.
    + rewrite S, len_app. unfold len in *. lia.
    + unfold len in *. lia.
    + rewrite len_app. pose proof (len_nonneg s). lia.
    + rewrite bytes_length, bytes_app, <- app_assoc. eapply only_upd; eauto.
  - rewrite app_nil_r.
    apply InAppend with (i := i) (k := k); cbn.
    + first [reflexivity | exact D].
    + exact F.
    + exact A.
    + exact S.
    + unfold len in *; cbn in *; lia.
    + exact U.
    + replace (bytes t ++ zeroed k) with (bytes t ++ Some NUL :: zeroed (k - 1)).
      * eapply only_upd; eauto.
      * destruct k; [unfold len in *; cbn in *; lia|]. cbn [Nat.sub]. rewrite Nat.sub_0_r. reflexivity.
Qed.

Lemma cat_ok d t s :
  inv d t -> no_nul s -> len (t ++ s) < LIMIT -> exists d', arg_dstr_cat s d = Val d' /\ inv d' (t ++ s).
Proof.
  intros I Ns LIM. rewrite len_app in LIM. pose proof (len_nonneg t). pose proof (len_nonneg s).
  unfold LIMIT in *.
  assert (N : no_nul t) by apply I.
  unfold arg_dstr_cat. rewrite cast_int_id by (unfold INT_MIN, INT_MAX; lia).
  rewrite int_op_val by (unfold INT_MIN, INT_MAX; lia). cbn [cbind].
  destruct (setup_ok d t (len s + 1) I) as (d1 & -> & R); [unfold LIMIT; lia|lia|unfold INT_MAX; lia|].
  cbn [cbind]. rewrite (ready_cstr d1 t (len s + 1)) by (auto; lia). cbn [cbind].
  eapply append_ready; eauto; lia.
Qed.

Lemma catc_ok d t c :
  inv d t -> len (t ++ upto_nul [c]) < LIMIT ->
  exists d', arg_dstr_catc c d = Val d' /\ inv d' (t ++ upto_nul [c]).
Proof.
  intros I LIM. assert (N : no_nul t) by apply I.
  rewrite len_app in LIM. pose proof (len_nonneg t). pose proof (len_nonneg (upto_nul [c])).
  unfold arg_dstr_catc.
  destruct (setup_ok d t 2 I) as (d1 & -> & R); [lia|lia|unfold LIMIT, INT_MAX in *; lia|].
  cbn [cbind]. rewrite (ready_cstr d1 t 2) by (auto; lia). cbn [cbind].
  eapply (append_ready d1 t 2 (upto_nul [c]) [c]); eauto.
  - apply upto_no_nul.
  - cbn. destruct (aeqb c NUL); unfold len; cbn; lia.
  - unfold len; cbn; lia.
  - cbn. destruct (aeqb c NUL) eqn:E; [right; apply aeqb_eq in E; subst; auto|left; reflexivity].
Qed.

(** * Formatting *)

Lemma firstn_all_ge {A} n (l : list A) : (List.length l <= n)%nat -> firstn n l = l.
Proof. intros H. rewrite <- (firstn_all l) at 2. rewrite !firstn_all2; auto. Qed.

(** One round reads back the text cut at [n] bytes and at its first NUL. *)
Lemma vsnprintf_ok n text :
  0 <= n -> len text <= INT_MAX ->
  exists b, vsnprintf n text = Val (len text, b) /\
            cstr b = Val (firstn (Z.to_nat n) (upto_nul text)).
Proof.
  intros P L. unfold vsnprintf.
  rewrite (proj2 (Z.ltb_ge _ _)) by exact L.
  destruct (store_whole (zeroed (Z.to_nat (n + 2))) (firstn (Z.to_nat n) text)) as [r E].
  { rewrite zeroed_length, firstn_length. lia. }
  rewrite E. cbn [cbind]. eexists; split; [reflexivity|].
  rewrite cstr_upto, upto_firstn. reflexivity.
Qed.

Lemma catf_round fuel n text :
  0 < n -> n + 2 <= INT_MAX -> len text <= INT_MAX ->
  catf_loop (S fuel) n text =
  if len (upto_nul text) <? n then Val (upto_nul text)
  else if n <? len text then catf_loop fuel (len text) text
  else cbind (int_op (n + n)) (fun n => catf_loop fuel n text).
Proof.
  intros P L1 L2. cbn [catf_loop].
  rewrite int_op_val by (unfold INT_MIN; lia). cbn [cbind].
  destruct (vsnprintf_ok n text) as (b & -> & C); [lia|exact L2|]. cbn [cbind].
  rewrite C. cbn [cbind].
  destruct (len (upto_nul text) <? n) eqn:E.
  - apply Z.ltb_lt in E.
    rewrite firstn_all_ge by (unfold len in E; lia).
    rewrite (proj2 (Z.ltb_lt _ _)) by exact E. reflexivity.
  - apply Z.ltb_ge in E.
    rewrite (proj2 (Z.ltb_ge _ _)); [reflexivity|].
    unfold len in *. rewrite firstn_length. lia.
Qed.

Lemma catf_loop_ok n text :
  0 < n -> n + 2 <= INT_MAX -> len text < LIMIT -> catf_loop 3 n text = Val (upto_nul text).
Proof.
  intros P L1 L2. unfold LIMIT in L2.
  assert (L3 : len text <= INT_MAX) by (unfold INT_MAX; lia).
  pose proof (upto_le text) as U.
  rewrite catf_round by assumption.
  destruct (len (upto_nul text) <? n) eqn:E1; [reflexivity|]. apply Z.ltb_ge in E1.
  assert (len (upto_nul text) <= len text) by (unfold len; lia).
  destruct (n <? len text) eqn:E2.
  - apply Z.ltb_lt in E2.
    rewrite catf_round; [|lia|unfold INT_MAX; lia|exact L3].
    destruct (len (upto_nul text) <? len text) eqn:E3; [reflexivity|]. apply Z.ltb_ge in E3.
    rewrite (proj2 (Z.ltb_ge (len text) (len text))) by lia.
    rewrite int_op_val by (unfold INT_MIN, INT_MAX; lia). cbn [cbind].
    rewrite catf_round; [|lia|unfold INT_MAX; lia|exact L3].
    rewrite (proj2 (Z.ltb_lt _ _)); [reflexivity|lia].
  - apply Z.ltb_ge in E2.
    rewrite int_op_val by (unfold INT_MIN, INT_MAX; lia). cbn [cbind].
    rewrite catf_round; [|lia|unfold INT_MAX; lia|exact L3].
    rewrite (proj2 (Z.ltb_lt _ _)); [reflexivity|lia].
Qed.

Lemma catf_ok d t n text :
  inv d t -> Z.of_nat n < LIMIT -> len text < LIMIT -> len (t ++ upto_nul text) < LIMIT ->
  exists d', arg_dstr_catf n text d = Val d' /\ inv d' (t ++ upto_nul text).
Proof.
  intros I L1 L2 L3. unfold arg_dstr_catf, START_VSNBUFF.
  rewrite cast_int_id by (unfold LIMIT, INT_MIN, INT_MAX in *; lia).
  rewrite catf_loop_ok; [|destruct (2 * Z.of_nat n <? 16) eqn:E; [lia|apply Z.ltb_ge in E; lia]
                         |destruct (2 * Z.of_nat n <? 16) eqn:E; unfold LIMIT, INT_MAX in *; lia
                         |exact L2].
  cbn [cbind]. apply cat_ok; auto. apply upto_no_nul.
Qed.

(** * Histories *)

Lemma call_ok d t o :
  inv d t -> well_formed o -> len (text_after o t) < LIMIT ->
  exists d', call o d = Val d' /\ inv d' (text_after o t).
Proof.
  intros I W L. destruct o; cbn [call text_after well_formed] in *.
  - apply cat_ok; auto.
  - apply catc_ok; auto.
  - destruct W. apply catf_ok; auto.
  - destruct (reset_ok d t I) as (d' & E & I' & _). eauto.
  - eapply set_null_ok; eauto.
  - eapply set_volatile_ok; eauto.
  - eapply set_static_ok; eauto.
  - eapply set_dynamic_ok; eauto.
Qed.

Lemma calls_app os os' d : calls (os ++ os') d = cbind (calls os d) (calls os').
Proof.
  revert d; induction os as [|o os IH]; intros d; cbn; [reflexivity|].
  destruct (call o d); cbn; auto.
Qed.

Lemma text_snoc os o : text_of (os ++ [o]) = text_after o (text_of os).
Proof. unfold text_of. rewrite fold_left_app. reflexivity. Qed.

Lemma calls_ok os :
  Forall well_formed os -> below_limit os ->
  exists d, calls os arg_dstr_create = Val d /\ inv d (text_of os).
Proof.
  induction os as [|o os IH] using rev_ind; intros W B.
  - exists arg_dstr_create. split; [reflexivity|apply inv_create].
  - apply Forall_app in W as [W1 W2]. inversion W2; subst.
    destruct IH as (d & E & I); [exact W1|intros b a ->; apply (B b (a ++ [o])); rewrite app_assoc; reflexivity|].
    rewrite calls_app, E. cbn [cbind calls].
    rewrite text_snoc.
    destruct (call_ok d (text_of os) o I) as (d' & E' & I'); auto.
    { rewrite <- text_snoc. apply (B _ []). rewrite app_nil_r. reflexivity. }
    rewrite E'. cbn [cbind]. eauto.
Qed.

(** The result, as in the property. *)
Lemma dstr_concatenates os :
  Forall well_formed os -> below_limit os ->
  exists d, calls os arg_dstr_create = Val d /\
            arg_dstr_cstr d = Val (text_of os) /\
            exists h, arg_dstr_destroy d = Val h /\ all_freed h.
Proof.
  intros W B. destruct (calls_ok os W B) as (d & E & I).
  exists d. split; [exact E|]. split; [apply inv_cstr, I|]. eapply destroy_ok; eauto.
Qed.

(** From one gigabyte on, the size computation overflows. *)
Lemma dstr_overflow s :
  LIMIT < len s <= INT_MAX - 1 -> arg_dstr_cat s arg_dstr_create = UB.
Proof.
  unfold LIMIT. intros [L1 L2]. unfold arg_dstr_cat.
  rewrite cast_int_id by (unfold INT_MIN, INT_MAX in *; lia).
  rewrite int_op_val by (unfold INT_MIN, INT_MAX in *; lia). cbn [cbind].
  unfold setup_append_buf. cbn [data_is_append d_data d_append arg_dstr_create negb d_size Z.ltb Z.compare cbind].
  replace (data_length arg_dstr_create) with (Val (A:=Z) 0) by reflexivity. cbn [cbind set_used d_used d_size arg_dstr_create].
  rewrite Z.add_0_r, int_op_val by (unfold INT_MIN, INT_MAX in *; lia). cbn [cbind].
  rewrite (proj2 (Z.leb_le _ _)) by lia.
  rewrite (proj2 (Z.ltb_ge _ _)) by lia.
  assert (int_op ((len s + 1) * 2) = UB) as ->; [|reflexivity].
  unfold int_op. destruct (in_int ((len s + 1) * 2)) eqn:E; [|reflexivity].
  apply in_int_iff in E. unfold INT_MAX in E. lia.
Qed.
