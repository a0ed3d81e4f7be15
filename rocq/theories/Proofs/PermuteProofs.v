(** The cyclic exchange is the block swap. *)
From Coq Require Import Arith List Lia Bool.
From Verif.Base Require Import CInt.
From Verif.Model Require Import Permute.
Import ListNotations.

Lemma gcd_loop_is fuel a b : 0 < b -> b <= S fuel -> gcd_loop fuel a b = Val (Nat.gcd a b).
Proof.
  revert a b. induction fuel as [|fuel IH]; intros a b B F; destruct b as [|b]; try lia; cbn [gcd_loop].
  - assert (b = 0) as -> by lia. rewrite Nat.mod_1_r. f_equal. symmetry. apply Nat.gcd_1_r.
  - rewrite Nat.gcd_comm, <- Nat.gcd_mod by lia. rewrite Nat.gcd_comm.
    pose proof (Nat.mod_upper_bound a (S b)) as U.
    destruct (a mod S b) as [|c] eqn:E; [rewrite Nat.gcd_0_r; reflexivity|].
    apply IH; lia.
Qed.

Lemma gcd_is_gcd a b : 0 < b -> gcd a b = Val (Nat.gcd a b).
Proof. intros B. apply gcd_loop_is; lia. Qed.

Lemma gcd_zero a : gcd a 0 = UB.
Proof. reflexivity. Qed.

Section Arrays.
Context {A : Type}.
Implicit Types l : list A.

Lemma upd_length i x l : length (upd i x l) = length l.
Proof. revert i; induction l as [|y l IH]; intros [|i]; cbn; auto. Qed.

Lemma nth_upd i x l j :
  nth_error (upd i x l) j = if (i =? j) && (i <? length l) then Some x else nth_error l j.
Proof.
  revert i j; induction l as [|y l IH]; intros [|i] [|j]; cbn; try reflexivity.
  - rewrite Bool.andb_false_r. reflexivity.
  - rewrite IH. reflexivity.
Qed.

Lemma swap_at_ok p c l : p < length l -> c < length l -> exists l',
  swap_at p c l = Val l' /\ length l' = length l /\
  forall q, nth_error l' q = if q =? c then nth_error l p else if q =? p then nth_error l c else nth_error l q.
Proof.
  intros P C. unfold swap_at.
  destruct (nth_error l p) as [a|] eqn:Ea; [|apply nth_error_None in Ea; lia].
  destruct (nth_error l c) as [b|] eqn:Eb; [|apply nth_error_None in Eb; lia].
  eexists. split; [reflexivity|]. split; [rewrite !upd_length; reflexivity|].
  intros q. rewrite !nth_upd, upd_length.
  replace (c <? length l) with true by (symmetry; apply Nat.ltb_lt; lia).
  replace (p <? length l) with true by (symmetry; apply Nat.ltb_lt; lia).
  rewrite !Bool.andb_true_r, (Nat.eqb_sym c q), (Nat.eqb_sym p q). reflexivity.
Qed.

(** One cycle.  Blocks [s, e) and [e, o), n = e - s, m = o - e. *)
Variables (s n m g i : nat).
Let N := n + m.
Let e := s + n.
Hypothesis Hn : 0 < n.
Hypothesis Hm : 0 < m.
Hypothesis Hg : g = Nat.gcd n m.
Hypothesis Hi : i < g.
Let L := N / g.
Let cs := e + i.
Let P (j : nat) := s + (n + i + j * m) mod N.

Lemma g_pos : 0 < g.
Proof. lia. Qed.

Lemma g_n : exists n', n = n' * g.
Proof. destruct (Nat.gcd_divide_l n m) as (k & K). exists k. rewrite Hg. exact K. Qed.
Lemma g_m : exists m', m = m' * g.
Proof. destruct (Nat.gcd_divide_r n m) as (k & K). exists k. rewrite Hg. exact K. Qed.

Lemma NL : N = L * g.
Proof.
  destruct g_n as (n' & En), g_m as (m' & Em). unfold L, N. rewrite En, Em.
  replace (n' * g + m' * g) with ((n' + m') * g) by lia. rewrite Nat.div_mul by lia. reflexivity.
Qed.

Lemma L_pos : 0 < L.
Proof. pose proof NL. destruct L; [unfold N in *; lia|lia]. Qed.

Lemma gcdNm : Nat.gcd N m = g.
Proof. unfold N. rewrite Nat.gcd_comm, Nat.gcd_add_diag_r, Nat.gcd_comm. symmetry. exact Hg. Qed.

Lemma i_m : i < m.
Proof. destruct g_m as (m' & Em). destruct m' as [|m']; [lia|]. nia. Qed.

Lemma P0 : P 0 = cs.
Proof. unfold P, cs, e. rewrite Nat.mul_0_l, Nat.add_0_r, Nat.mod_small; [lia|]. pose proof i_m. unfold N. lia. Qed.

Lemma P_range j : s <= P j < s + N.
Proof. unfold P. pose proof (Nat.mod_upper_bound (n + i + j * m) N). unfold N in *. lia. Qed.

Lemma P_S j : P (S j) = if e <=? P j then P j - n else P j + m.
Proof.
  unfold P at 1. replace (n + i + S j * m) with ((n + i + j * m) + m) by lia.
  rewrite Nat.add_mod by (unfold N; lia).
  pose proof (P_range j) as R. set (r := (n + i + j * m) mod N). 
  assert (P j = s + r) as E by reflexivity. assert (r < N) as Rr by lia.
  rewrite E. rewrite (Nat.mod_small m) by (unfold N; lia).
  destruct (Nat.leb_spec e (s + r)) as [C|C]; unfold e in C.
  - replace (r + m) with (r - n + 1 * N) by (unfold N in *; lia). rewrite Nat.mod_add by (unfold N; lia).
    rewrite Nat.mod_small by lia. lia.
  - rewrite Nat.mod_small by (unfold N in *; lia). lia.
Qed.

Lemma P_L : P L = cs.
Proof.
  rewrite <- P0. unfold P. f_equal. destruct g_m as (m' & Em).
  replace (n + i + L * m) with (n + i + 0 * m + m' * N); [apply Nat.mod_add; unfold N; lia|].
  rewrite NL. rewrite Em at 2. nia.
Qed.

Lemma coprime_Lm : exists m', m = m' * g /\ Nat.gcd L m' = 1.
Proof.
  destruct g_m as (m' & Em). exists m'. split; [exact Em|].
  assert (Nat.gcd (N / g) (m / g) = 1) as H by (apply Nat.gcd_div_gcd; [lia|symmetry; apply gcdNm]).
  assert (m / g = m') as Ed by (rewrite Em; apply Nat.div_mul; lia). rewrite Ed in H. exact H.
Qed.

Lemma P_inj j k : j < L -> k < L -> P j = P k -> j = k.
Proof.
  assert (forall j k, j < k -> k < L -> P j <> P k) as H.
  { clear j k. intros j k J K E. unfold P in E.
    assert ((n + i + j * m) mod N = (n + i + k * m) mod N) as E' by lia. clear E.
    destruct coprime_Lm as (m' & Em & Cp).
    assert (Nat.divide N ((k - j) * m)) as D.
    { assert (N <> 0) as NZ by (unfold N; lia).
      exists ((n + i + k * m) / N - (n + i + j * m) / N).
      pose proof (Nat.div_mod (n + i + j * m) N NZ) as D1.
      pose proof (Nat.div_mod (n + i + k * m) N NZ) as D2.
      rewrite Nat.mul_sub_distr_r. rewrite Nat.mul_sub_distr_r. lia. }
    destruct D as (q & D).
    assert ((k - j) * m' = q * L) as D'.
    { rewrite NL in D. rewrite Em in D.
      assert (((k - j) * m') * g = (q * L) * g) as X by lia.
      apply Nat.mul_cancel_r in X; [exact X|lia]. }
    assert (Nat.divide L (k - j)) as (z & Z).
    { apply (Nat.gauss L m' (k - j)); [|exact Cp]. exists q. lia. }
    destruct z; nia. }
  intros J K E. destruct (Nat.lt_trichotomy j k) as [X|[X|X]]; [|exact X|].
  - destruct (H j k X K E).
  - destruct (H k j X J (eq_sym E)).
Qed.

Definition Inv (l : list A) (j : nat) (l' : list A) : Prop :=
  length l' = length l /\
  nth_error l' cs = nth_error l (P j) /\
  (forall k, 1 <= k <= j -> nth_error l' (P k) = nth_error l (P (k - 1))) /\
  (forall q, (forall k, k <= j -> q <> P k) -> nth_error l' q = nth_error l q).

Definition Final (l l' : list A) : Prop :=
  length l' = length l /\
  (forall k, 1 <= k <= L -> nth_error l' (P k) = nth_error l (P (k - 1))) /\
  (forall q, (forall k, 1 <= k <= L -> q <> P k) -> nth_error l' q = nth_error l q).

Lemma cycle_run l : s + N <= length l -> forall r j l', j + S r = L -> Inv l j l' ->
  exists l'', cycle (S r) n m e cs (P j) l' = Val l'' /\ Final l l''.
Proof.
  intros Len. induction r as [|r IH]; intros j l' J (I1 & I2 & I3 & I4);
    rewrite (ltac:(reflexivity) : forall k pos x, cycle (S k) n m e cs pos x =
      let pos := if e <=? pos then pos - n else pos + m in cbind (swap_at pos cs x) (cycle k n m e cs pos));
    cbv zeta; rewrite <- P_S.
  - assert (S j = L) as -> by lia. rewrite P_L.
    assert (cs < length l') as C by (rewrite I1; pose proof (P_range 0); rewrite P0 in *; lia).
    destruct (swap_at_ok cs cs l' C C) as (l2 & -> & Len2 & Q). cbn [cbind cycle].
    exists l2. split; [reflexivity|].
    assert (forall q, nth_error l2 q = nth_error l' q) as Same.
    { intros q. rewrite Q. destruct (Nat.eqb_spec q cs) as [->|]; reflexivity. }
    split; [lia|]. split.
    + intros k K. rewrite Same. destruct (Nat.eq_dec k L) as [->|NE].
      * rewrite P_L, I2. f_equal. f_equal. lia.
      * apply I3. lia.
    + intros q H. rewrite Same. apply I4. intros k K. destruct k as [|k].
      * rewrite P0, <- P_L. apply H. pose proof L_pos. lia.
      * apply H. lia.
  - assert (S j < L) as SJ by lia.
    assert (cs < length l') as C by (rewrite I1; pose proof (P_range 0); rewrite P0 in *; lia).
    assert (P (S j) < length l') as C' by (rewrite I1; pose proof (P_range (S j)); lia).
    destruct (swap_at_ok (P (S j)) cs l' C' C) as (l2 & -> & Len2 & Q). cbn [cbind].
    assert (P (S j) <> cs) as NC.
    { rewrite <- P0. intros E. apply P_inj in E; lia. }
    assert (nth_error l' (P (S j)) = nth_error l (P (S j))) as Un.
    { apply I4. intros k K E. apply P_inj in E; lia. }
    apply IH; [lia|]. split; [lia|]. split; [|split].
    + rewrite Q, Nat.eqb_refl. exact Un.
    + intros k K. rewrite Q.
      assert (P k <> cs) as NC2 by (rewrite <- P0; intros E; apply P_inj in E; lia).
      destruct (Nat.eqb_spec (P k) cs); [contradiction|].
      destruct (Nat.eqb_spec (P k) (P (S j))) as [E|NE].
      * apply P_inj in E; [|lia|lia]. subst k. rewrite I2. f_equal. f_equal. lia.
      * apply I3. assert (k <> S j) by (intros ->; contradiction). lia.
    + intros q H. rewrite Q.
      destruct (Nat.eqb_spec q cs) as [->|]; [exfalso; apply (H 0); [lia|symmetry; apply P0]|].
      destruct (Nat.eqb_spec q (P (S j))) as [->|]; [exfalso; apply (H (S j)); [lia|reflexivity]|].
      apply I4. intros k K. apply H. lia.
Qed.

Lemma cycle_final l : s + N <= length l -> exists l', cycle L n m e cs cs l = Val l' /\ Final l l'.
Proof.
  intros Len. pose proof L_pos as LP.
  assert (exists r, L = S r) as (r & E) by (destruct L as [|r]; [lia|exists r; reflexivity]).
  destruct (cycle_run l Len r 0 l) as (l' & H); [lia| |].
  - split; [reflexivity|]. split; [rewrite P0; reflexivity|]. split; [intros; lia|]. intros; reflexivity.
  - rewrite P0 in H. rewrite E. exists l'. exact H.
Qed.

(** The cycle of [i] covers the positions congruent to [i]. *)
Lemma P_class j : (P j - s) mod g = i.
Proof.
  unfold P. replace (s + (n + i + j * m) mod N - s) with ((n + i + j * m) mod N) by lia.
  destruct g_n as (n' & En), g_m as (m' & Em).
  pose proof (Nat.div_mod (n + i + j * m) N ltac:(unfold N; lia)) as D.
  set (q := (n + i + j * m) / N) in *. set (r := (n + i + j * m) mod N) in *.
  assert (exists x, n + i + j * m = x * g + i) as (x & X) by (exists (n' + j * m'); nia).
  rewrite NL in D.
  assert ((r + (L * q) * g) mod g = r mod g) as E1 by (apply Nat.mod_add; lia).
  replace (r + L * q * g) with (i + x * g) in E1 by nia.
  rewrite Nat.mod_add in E1 by lia. rewrite <- E1. apply Nat.mod_small. lia.
Qed.

Lemma P_cover q : q < N -> q mod g = i -> exists k, 1 <= k <= L /\ P k = s + q.
Proof.
  intros Q C. destruct coprime_Lm as (m' & Em & Cp). destruct g_n as (n' & En).
  destruct (Nat.gcd_bezout_pos m' L) as (a & b & AB).
  { destruct m'; [|lia]. lia. }
  rewrite Nat.gcd_comm, Cp in AB.
  (* a * m' = 1 + b * L *)
  pose proof (Nat.div_mod q g ltac:(lia)) as Dq. rewrite C in Dq. set (q' := q / g) in *.
  (* want k with n' + k*m' == q' mod L; n' <= L *)
  assert (n' <= L) as nL by (pose proof NL; unfold N in *; nia).
  set (d := q' + L - n').
  assert (q' < L) as q'L by (pose proof NL; nia).
  set (k0 := (a * d) mod L). pose proof L_pos as LP.
  assert (exists z, n' + k0 * m' + z * L = q' + (1 + b * d) * L) as (z & Z).
  { exists ((a * d) / L * m'). pose proof (Nat.div_mod (a * d) L ltac:(lia)) as D. fold k0 in D.
    assert (a * d * m' = d + b * L * d) as E by (replace (a * d * m') with ((a * m') * d) by lia; rewrite AB; lia).
    rewrite D in E. unfold d in *. nia. }
  assert (P k0 = s + q) as Pk.
  { unfold P. f_equal.
    assert ((n + i + k0 * m + z * N) mod N = (n + i + k0 * m) mod N) as E1 by (apply Nat.mod_add; unfold N; lia).
    rewrite <- E1. replace (n + i + k0 * m + z * N) with (q + (1 + b * d) * N).
    - rewrite Nat.mod_add by (unfold N; lia). apply Nat.mod_small. exact Q.
    - rewrite NL, Em, En. rewrite Dq. nia. }
  assert (k0 < L) as KL by (apply Nat.mod_upper_bound; lia).
  destruct k0 as [|k].
  - exists L. split; [lia|]. rewrite P_L, <- P0. exact Pk.
  - exists (S k). split; [lia|exact Pk].
Qed.
End Arrays.

(** ** All cycles *)
Definition source (n m q : nat) : nat := if q <? m then q + n else q - m.

Definition Outer {A} (s n m g i : nat) (l l' : list A) : Prop :=
  length l' = length l /\
  (forall q, q < n + m -> nth_error l' (s + q) =
     if q mod g <? i then nth_error l (s + source n m q) else nth_error l (s + q)) /\
  (forall p, p < s \/ s + (n + m) <= p -> nth_error l' p = nth_error l p).

Lemma source_class n m g q : 0 < g -> g = Nat.gcd n m -> q < n + m -> source n m q mod g = q mod g.
Proof.
  intros G Eg Q. destruct (Nat.gcd_divide_l n m) as (a & Ea). destruct (Nat.gcd_divide_r n m) as (b & Eb).
  rewrite <- Eg in *. unfold source. destruct (Nat.ltb_spec q m).
  - rewrite Ea. apply Nat.mod_add. lia.
  - rewrite <- (Nat.mod_add (q - m) b g) by lia. f_equal. lia.
Qed.

Lemma outer_step {A} s n m g i (l l1 : list A) :
  0 < n -> 0 < m -> g = Nat.gcd n m -> i < g -> s + (n + m) <= length l -> Outer s n m g i l l1 ->
  exists l2, cycle ((n + m) / g) n m (s + n) (s + n + i) (s + n + i) l1 = Val l2 /\ Outer s n m g (S i) l l2.
Proof.
  intros Hn Hm Hg Hi Len (O1 & O2 & O3).
  destruct (cycle_final s n m g i Hn Hm Hg Hi l1) as (l2 & E & F1 & F2 & F3); [lia|].
  exists l2. split; [exact E|]. split; [lia|]. split.
  - intros q Q. destruct (Nat.ltb_spec (q mod g) (S i)) as [C|C].
    + destruct (Nat.eq_dec (q mod g) i) as [Ci|Ci].
      * destruct (P_cover s n m g i Hn Hm Hg Hi q Q Ci) as (k & K & Pk).
        rewrite <- Pk, F2 by exact K.
        pose proof (P_S s n m g i Hn Hm Hg Hi (k - 1)) as PS. replace (S (k - 1)) with k in PS by lia.
        pose proof (Nat.mod_upper_bound (n + i + (k - 1) * m) (n + m) ltac:(lia)) as PR.
        assert (s + (n + i + (k - 1) * m) mod (n + m) = s + source n m q) as ->.
        { rewrite Pk in PS. unfold source.
          destruct (Nat.leb_spec (s + n) (s + (n + i + (k - 1) * m) mod (n + m)));
            destruct (Nat.ltb_spec q m); lia. }
        rewrite O2 by (unfold source; destruct (Nat.ltb_spec q m); lia).
        rewrite (source_class n m g q) by (lia || exact Hg).
        destruct (Nat.ltb_spec (q mod g) i); [lia|reflexivity].
      * rewrite F3.
        -- rewrite O2 by exact Q. destruct (Nat.ltb_spec (q mod g) i); [reflexivity|lia].
        -- intros k K Ek. assert ((s + q - s) mod g = i) as PC by (rewrite Ek; apply (P_class s n m g i Hn Hm Hg Hi k)).
           apply Ci. rewrite <- PC. f_equal. lia.
    + rewrite F3.
      * rewrite O2 by exact Q. destruct (Nat.ltb_spec (q mod g) i); [lia|reflexivity].
      * intros k K Ek. assert ((s + q - s) mod g = i) as PC by (rewrite Ek; apply (P_class s n m g i Hn Hm Hg Hi k)).
        replace (s + q - s) with q in PC by lia. lia.
  - intros p H. rewrite F3; [apply O3; exact H|].
    intros k K Ek. pose proof (Nat.mod_upper_bound (n + i + k * m) (n + m) ltac:(lia)). lia.
Qed.

Lemma cycles_outer {A} s n m g (l : list A) :
  0 < n -> 0 < m -> g = Nat.gcd n m -> s + (n + m) <= length l ->
  forall k i l1, i + k = g -> Outer s n m g i l l1 ->
  exists l2, cycles k i ((n + m) / g) n m (s + n) l1 = Val l2 /\ Outer s n m g g l l2.
Proof.
  intros Hn Hm Hg Len. induction k as [|k IH]; intros i l1 E O; cbn [cycles].
  - assert (i = g) as -> by lia. exists l1. auto.
  - destruct (outer_step s n m g i l l1) as (l2 & -> & O'); auto; [lia|].
    cbn [cbind]. apply IH; [lia|exact O'].
Qed.

Lemma nth_error_ext {A} (l l' : list A) : (forall i, nth_error l i = nth_error l' i) -> l = l'.
Proof.
  revert l'; induction l as [|x l IH]; intros [|y l'] H.
  - reflexivity.
  - specialize (H 0). discriminate H.
  - specialize (H 0). discriminate H.
  - pose proof (H 0) as E. injection E as ->. f_equal. apply IH. intros i. exact (H (S i)).
Qed.

Lemma nth_error_app {A} (a b : list A) i :
  nth_error (a ++ b) i = if i <? length a then nth_error a i else nth_error b (i - length a).
Proof.
  destruct (Nat.ltb_spec i (length a)); [apply nth_error_app1; lia|apply nth_error_app2; lia].
Qed.

Lemma permute_args_swaps {A} (a b c d : list A) :
  0 < length b -> 0 < length c ->
  permute_args (length a) (length a + length b) (length a + length b + length c) (a ++ b ++ c ++ d)
  = Val (a ++ c ++ b ++ d).
Proof.
  intros B C. unfold permute_args.
  replace (length a + length b - length a) with (length b) by lia.
  replace (length a + length b + length c - (length a + length b)) with (length c) by lia.
  replace (length a + length b + length c - length a) with (length b + length c) by lia.
  rewrite gcd_is_gcd by exact C. cbn [cbind].
  set (l := a ++ b ++ c ++ d). set (g := Nat.gcd (length b) (length c)).
  assert (length l = length a + (length b + (length c + length d))) as Len
    by (unfold l; rewrite !app_length; reflexivity).
  destruct (cycles_outer (length a) (length b) (length c) g l B C eq_refl ltac:(lia) g 0 l eq_refl) as (l2 & -> & O1 & O2 & O3).
  { split; [reflexivity|]. split; [|reflexivity]. intros q Q. reflexivity. }
  assert (0 < g) as G.
  { unfold g. destruct (Nat.gcd (length b) (length c)) eqn:E; [|lia]. apply Nat.gcd_eq_0_l in E. lia. }
  f_equal. apply nth_error_ext. intros p.
  rewrite !nth_error_app.
  destruct (Nat.ltb_spec p (length a)) as [H1|H1].
  { rewrite O3 by lia. unfold l. rewrite nth_error_app. destruct (Nat.ltb_spec p (length a)); [reflexivity|lia]. }
  destruct (Nat.lt_ge_cases p (length a + (length b + length c))) as [H2|H2].
  - replace p with (length a + (p - length a)) at 1 by lia. rewrite O2 by lia.
    destruct (Nat.ltb_spec ((p - length a) mod g) g) as [_|X]; [|pose proof (Nat.mod_upper_bound (p - length a) g); lia].
    unfold source, l. rewrite !nth_error_app.
    destruct (Nat.ltb_spec (p - length a) (length c)) as [H3|H3].
    + destruct (Nat.ltb_spec (length a + (p - length a + length b)) (length a)); [lia|].
      destruct (Nat.ltb_spec (length a + (p - length a + length b) - length a) (length b)); [lia|].
      destruct (Nat.ltb_spec (length a + (p - length a + length b) - length a - length b) (length c)); [|lia].
      f_equal. lia.
    + destruct (Nat.ltb_spec (length a + (p - length a - length c)) (length a)); [lia|].
      destruct (Nat.ltb_spec (length a + (p - length a - length c) - length a) (length b)); [|lia].
      destruct (Nat.ltb_spec (p - length a - length c) (length b)); [|lia].
      f_equal. lia.
  - rewrite O3 by lia. unfold l. rewrite !nth_error_app.
    destruct (Nat.ltb_spec p (length a)); [lia|].
    destruct (Nat.ltb_spec (p - length a) (length b)); [lia|].
    destruct (Nat.ltb_spec (p - length a - length b) (length c)); [lia|].
    destruct (Nat.ltb_spec (p - length a) (length c)); [lia|].
    destruct (Nat.ltb_spec (p - length a - length c) (length b)); [lia|].
    f_equal. lia.
Qed.
