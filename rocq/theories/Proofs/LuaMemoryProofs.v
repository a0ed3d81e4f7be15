(** The memory of the Lua binding. *)
From Coq Require Import ZArith Bool List Ascii String Arith Lia Permutation.
From Verif.Base Require Import CInt CStr CMem.
From Verif.Model Require Import Config LuaBinding LuaMemory.
From Verif.Spec Require Import LuaMemorySpec.
Import ListNotations.
Open Scope list_scope.
Open Scope nat_scope.

(** Unfold the loops last when comparing terms. *)
Local Strategy 1000 [read_args read_args_].

Definition somes (ps : list ptr) : list nat := flat_map (fun p => match p with Some i => [i] | None => [] end) ps.

Lemma somes_app (a b : list ptr) : somes (a ++ b) = somes a ++ somes b.
Proof. apply flat_map_app. Qed.
Lemma somes_none n : somes (repeat None n) = [].
Proof. induction n; [reflexivity|exact IHn]. Qed.

(** The live blocks are those in [ps], each once. *)
Definition owned (ps : list ptr) (m : mem) : Prop :=
  Permutation (map fst (m_live m)) (somes ps) /\ NoDup (map fst (m_live m)) /\
  (forall i, In i (map fst (m_live m)) -> i < m_calls m).

Lemma owned_perm ps qs m : owned ps m -> Permutation (somes ps) (somes qs) -> owned qs m.
Proof. intros (A & B & C) P. split; [etransitivity; eassumption|]. split; assumption. Qed.

Lemma owned_strdup ok s ps m p m' : owned ps m -> strdup_ ok s m = (p, m') -> owned (p :: ps) m'.
Proof.
  intros (A & B & C) H. unfold strdup_ in H. destruct (ok (m_calls m)); injection H as <- <-; cbn.
  - split; [apply perm_skip, A|]. split.
    + constructor; [|exact B]. intros I. exact (Nat.lt_irrefl _ (C _ I)).
    + intros i [<-|I]; cbn; [lia|]. apply C in I. cbn. lia.
  - split; [exact A|]. split; [exact B|]. intros i I. apply C in I. cbn. lia.
Qed.

Lemma remove_block_in i l : In i (map fst l) -> exists l', remove_block i l = Some l' /\ Permutation (map fst l) (i :: map fst l').
Proof.
  induction l as [|[j s] l IH]; [intros []|]. intros I. cbn. destruct (Nat.eqb_spec i j) as [->|N].
  - exists l. split; reflexivity.
  - destruct I as [I|I]; [cbn in I; congruence|]. destruct (IH I) as (l' & E & P). rewrite E. eexists. split; [reflexivity|].
    cbn. rewrite P. apply perm_swap.
Qed.

Lemma owned_free p ps m : owned (p :: ps) m -> exists m', free_ p m = Val m' /\ owned ps m'.
Proof.
  intros (A & B & C). destruct p as [i|]; [|exists m; split; [reflexivity|]; split; [exact A|split; assumption]].
  cbn in A. assert (In i (map fst (m_live m))) as I by (eapply Permutation_in; [symmetry; exact A|left; reflexivity]).
  destruct (remove_block_in i (m_live m) I) as (l' & E & P). unfold free_. rewrite E. eexists. split; [reflexivity|].
  cbn. split; [|split].
  - eapply Permutation_cons_inv. etransitivity; [symmetry; exact P|exact A].
  - eapply Permutation_NoDup in B; [|exact P]. inversion B; assumption.
  - intros j J. cbn. apply C. eapply Permutation_in; [symmetry; exact P|right; exact J].
Qed.

Lemma owned_free_all ps qs m : owned (ps ++ qs) m -> exists m', free_all ps m = Val m' /\ owned qs m'.
Proof.
  revert m. induction ps as [|p ps IH]; intros m O; [exists m; split; [reflexivity|exact O]|].
  destruct (owned_free p (ps ++ qs) m O) as (m1 & E1 & O1). destruct (IH m1 O1) as (m2 & E2 & O2).
  exists m2. cbn. rewrite E1. cbn. split; assumption.
Qed.

Lemma somes_split (a : list ptr) i p : nth_error a i = Some p -> Permutation (somes a) (somes (p :: firstn i a ++ skipn (S i) a)).
Proof.
  intros H. assert (a = firstn i a ++ [p] ++ skipn (S i) a) as E.
  { revert i H. induction a as [|x a IH]; intros [|i] H; try discriminate H; [injection H as ->; reflexivity|].
    cbn. f_equal. apply IH. exact H. }
  rewrite E at 1. rewrite !somes_app. change (p :: firstn i a ++ skipn (S i) a) with ([p] ++ (firstn i a ++ skipn (S i) a)).
  rewrite !somes_app. rewrite !app_assoc. apply Permutation_app_tail, Permutation_app_comm.
Qed.

Lemma somes_set (a : list ptr) i p : i < List.length a ->
  Permutation (somes (firstn i a ++ [p] ++ skipn (S i) a)) (somes (p :: firstn i a ++ skipn (S i) a)).
Proof.
  intros _. change (p :: firstn i a ++ skipn (S i) a) with ([p] ++ (firstn i a ++ skipn (S i) a)).
  rewrite !somes_app. rewrite !app_assoc. apply Permutation_app_tail, Permutation_app_comm.
Qed.

(** Storing into an empty slot. *)
Lemma set_slot_ok (a : list ptr) i p : nth_error a i = Some None ->
  exists a', set_slot a i p = Val a' /\ List.length a' = List.length a /\
    Permutation (somes a') (somes (p :: a)) /\ a' = firstn i a ++ [p] ++ skipn (S i) a.
Proof.
  intros H. assert (i < List.length a) as L by (apply nth_error_Some; congruence).
  unfold set_slot. rewrite (proj2 (Nat.ltb_lt _ _) L). eexists. split; [reflexivity|]. split.
  { rewrite !app_length, firstn_length, skipn_length. cbn. lia. }
  split; [|reflexivity]. rewrite (somes_set a i p L). pose proof (somes_split a i None H) as P. cbn in P.
  change (p :: a) with ([p] ++ a). change (p :: firstn i a ++ skipn (S i) a) with ([p] ++ (firstn i a ++ skipn (S i) a)).
  rewrite (somes_app [p] a), (somes_app [p] (_ ++ _)).
  apply Permutation_app_head. symmetry. exact P.
Qed.

(** free_both as free_all of an interleaving. *)
Lemma free_both_owned n : forall i a b qs m, i + n = List.length a -> List.length b = List.length a ->
  owned (skipn i a ++ skipn i b ++ qs) m -> exists m', free_both i n a b m = Val m' /\ owned qs m'.
Proof.
  induction n as [|n IH]; intros i a b qs m La Lb O.
  - exists m. split; [reflexivity|]. rewrite !skipn_all2 in O by lia. exact O.
  - cbn. destruct (nth_error a i) as [p|] eqn:Ea; [|apply nth_error_None in Ea; lia].
    destruct (nth_error b i) as [q|] eqn:Eb; [|apply nth_error_None in Eb; lia].
    assert (forall (l : list ptr) x, nth_error l i = Some x -> skipn i l = x :: skipn (S i) l) as Sk.
    { clear. induction i as [|i IHi]; intros [|y l] x H; try discriminate H; [injection H as ->; reflexivity|]. cbn in *. apply IHi. exact H. }
    rewrite (Sk a p Ea), (Sk b q Eb) in O.
    assert (owned (p :: q :: skipn (S i) a ++ skipn (S i) b ++ qs) m) as O1.
    { eapply owned_perm; [exact O|]. change (p :: q :: skipn (S i) a ++ skipn (S i) b ++ qs) with ([p] ++ [q] ++ (skipn (S i) a ++ skipn (S i) b ++ qs)).
      change ((p :: skipn (S i) a) ++ (q :: skipn (S i) b) ++ qs) with ([p] ++ skipn (S i) a ++ [q] ++ skipn (S i) b ++ qs).
      rewrite !somes_app. apply Permutation_app_head. rewrite !app_assoc. do 2 apply Permutation_app_tail. apply Permutation_app_comm. }
    destruct (owned_free _ _ _ O1) as (m1 & -> & O2). cbn. destruct (owned_free _ _ _ O2) as (m2 & -> & O3). cbn.
    apply IH; [lia|exact Lb|exact O3].
Qed.

Definition slots (L : lconf) : list ptr := l_strs L ++ l_args L ++ l_env L.

Lemma owned_nil m : owned [] m -> m_live m = [].
Proof. intros (A & _). cbn in A. symmetry in A. apply Permutation_nil in A. destruct (m_live m); [reflexivity|discriminate]. Qed.

Lemma destory_ok L m : List.length (l_args L) = 256 -> List.length (l_env L) = 256 -> owned (slots L) m ->
  exists m', destory_config L m = Val m' /\ m_live m' = [].
Proof.
  intros La Le O. destruct (owned_free_all (l_strs L) (l_args L ++ l_env L) m O) as (m1 & E1 & O1).
  destruct (free_both_owned 256 0 (l_args L) (l_env L) [] m1) as (m2 & E2 & O2).
  - rewrite La. reflexivity.
  - congruence.
  - change (skipn 0 (l_args L)) with (l_args L). change (skipn 0 (l_env L)) with (l_env L). rewrite app_nil_r. exact O1.
  - exists m2. unfold destory_config. rewrite E1. cbn [cbind]. split; [exact E2|apply owned_nil, O2].
Qed.

(** The tables. *)
Definition empty_from (n : nat) (a : list ptr) : Prop := forall i, n <= i -> i < List.length a -> nth_error a i = Some None.

Lemma empty_from_set n (a : list ptr) p (a' : list ptr) : empty_from n a -> a' = firstn n a ++ [p] ++ skipn (S n) a -> n < List.length a -> empty_from (S n) a'.
Proof.
  intros E -> L i I J. rewrite !app_length, firstn_length, skipn_length in J. cbn in J.
  rewrite nth_error_app2; rewrite firstn_length; [|lia]. rewrite nth_error_app2; [|cbn; lia]. cbn [List.length].
  rewrite <- (E i) by lia. assert (forall (l : list ptr) k j, nth_error (skipn k l) j = nth_error l (k + j)) as Sk.
  { clear. intros l k. revert l. induction k as [|k IH]; intros [|x l] j; try reflexivity; [destruct j; reflexivity|apply IH]. }
  rewrite Sk. f_equal. lia.
Qed.

Lemma check_owned ok l : forall size dst rest m, size <= 255 -> List.length dst = 256 -> empty_from size dst -> owned (dst ++ rest) m ->
  exists good size' dst' m', checkstringtable_ ok l 255 size dst m = Val (good, size', dst', m') /\
    size' <= 255 /\ List.length dst' = 256 /\ empty_from size' dst' /\ owned (dst' ++ rest) m' /\
    good = (match checkstringtable l (255 - size) with Some _ => true | None => false end).
Proof.
  induction l as [|[k v] l IH]; intros size dst rest m S1 Ld Em O.
  - exists true, size, dst, m. auto 8.
  - assert (exists good size' dst' m', Val (false, size, dst, m) = Val (good, size', dst', m') /\
      size' <= 255 /\ List.length dst' = 256 /\ empty_from size' dst' /\ owned (dst' ++ rest) m' /\ good = false) as Stop.
    { exists false, size, dst, m. auto 8. }
    cbn [checkstringtable_ checkstringtable]. destruct k; try exact Stop. destruct v; try exact Stop.
    destruct (Nat.eqb_spec size 255) as [->|N]; [exact Stop|].
    destruct (strdup_ ok s m) as [p m1] eqn:Es. pose proof (owned_strdup ok s _ m p m1 O Es) as O1.
    destruct (set_slot_ok dst size p) as (a' & E & La & P & Ea). { apply Em; lia. }
    rewrite E. cbn [cbind]. replace (255 - size) with (S (255 - S size)) by lia.
    destruct (IH (S size) a' rest m1) as (good & size' & dst' & m' & R & R1 & R2 & R3 & R4 & R5).
    + lia.
    + congruence.
    + eapply empty_from_set; [exact Em|exact Ea|lia].
    + eapply owned_perm; [exact O1|]. change (p :: dst ++ rest) with ((p :: dst) ++ rest). rewrite !somes_app.
      apply Permutation_app_tail. symmetry. exact P.
    + exists good, size', dst', m'. rewrite R. repeat (split; [assumption || reflexivity|]).
      rewrite R5. destruct (checkstringtable l (255 - S size)); reflexivity.
Qed.

(** The loop. *)
Record inv (i : nat) (L : lconf) (m : mem) : Prop := mkInv {
  i_strs : List.length (l_strs L) = 6;
  i_args : List.length (l_args L) = 256;
  i_env : List.length (l_env L) = 256;
  i_es : empty_from (i - 5) (l_strs L);
  i_ea : i <= 11 -> empty_from 0 (l_args L);
  i_ee : i <= 12 -> empty_from 0 (l_env L);
  i_own : owned (slots L) m
}.

(** Strings only where there is a string, tables only where there is an array. *)
Fixpoint fits (masks : list (string * ltype * bool)) (i : nat) : Prop :=
  match masks with
  | [] => True
  | (_, ty, na) :: masks =>
      (ty = TString -> 5 <= i <= 10) /\ (na = true -> ty = TString) /\ (ty = TTable -> i = 11 \/ i = 12) /\
      fits masks (S i)
  end.

Lemma arg_mask_fits : fits arg_mask 0.
Proof. cbn. intuition (try discriminate; lia). Qed.

Lemma inv_next i L m : inv i L m -> inv (S i) L m.
Proof.
  intros [A B C D E F G]. constructor; try assumption; try (intros; apply E || apply F; lia).
  intros j J. apply D. lia.
Qed.

Lemma store_string_inv i L m p m1 : 5 <= i <= 10 -> inv i L m ->
  (forall ps, owned ps m -> owned (p :: ps) m1) ->
  exists L', store_string_ i p L = Val L' /\ inv (S i) L' m1.
Proof.
  intros I V O. pose proof V as [A B C D E F G]. unfold store_string_. rewrite (proj2 (Nat.leb_le 5 i)), (proj2 (Nat.leb_le i 10)) by lia.
  cbn [andb]. destruct (set_slot_ok (l_strs L) (i - 5) p) as (a' & E1 & E2 & E3 & E4). { apply D; lia. }
  rewrite E1. cbn [cbind]. eexists. split; [reflexivity|]. constructor; cbn [l_strs l_args l_env]; try assumption.
  - congruence.
  - intros j J J2. eapply (empty_from_set (i - 5) (l_strs L) p a' D E4); lia.
  - intros; apply E; lia.
  - intros; apply F; lia.
  - unfold slots in *. cbn. eapply owned_perm; [apply O, G|]. change (p :: l_strs L ++ l_args L ++ l_env L) with ((p :: l_strs L) ++ (l_args L ++ l_env L)).
    rewrite (somes_app a'), (somes_app (p :: l_strs L)). apply Permutation_app_tail. symmetry. exact E3.
Qed.

Lemma loop_ok ok t masks : forall i L m, fits masks i -> inv i L m ->
  exists good L' m', read_args_ ok t masks i L m = Val (good, L', m') /\
    List.length (l_args L') = 256 /\ List.length (l_env L') = 256 /\ owned (slots L') m' /\
    forall c, good = (match read_args t masks i c with inl _ => true | inr _ => false end).
Proof.
  induction masks as [|[[name ty] na] masks IH]; intros i L m Ft V.
  { exists true, L, m. destruct V. auto 6. }
  destruct Ft as (F1 & F2 & F3 & F4). cbn [read_args_ read_args].
  destruct (negb (has_type ty (lookup t (lit name))) && negb (na && is_nil (lookup t (lit name)))) eqn:Ty.
  { exists false, L, m. destruct V. auto 6. }
  destruct (lookup t (lit name)) as [|b|n|s|l|] eqn:Lk.
  - assert (na = true) as Na by (destruct na, ty; cbn in Ty; try discriminate Ty; reflexivity).
    destruct (store_string_inv i L m None m) as (L1 & E1 & V1); [apply F1, F2, Na|exact V| |].
    { intros ps O. exact O. }
    rewrite E1. cbn [cbind]. destruct (IH (S i) L1 m F4 V1) as (good & L' & m' & R & R1 & R2 & R3 & R4).
    exists good, L', m'. auto 8.
  - destruct (IH (S i) L m F4 (inv_next _ _ _ V)) as (good & L' & m' & R & R1 & R2 & R3 & R4). exists good, L', m'. auto 8.
  - match goal with |- context [read_args_ ok t masks (S i) ?X m] => set (L1 := X) end.
    assert (inv (S i) L1 m) as V1. { apply inv_next in V. destruct V. constructor; assumption. }
    destruct (IH (S i) L1 m F4 V1) as (good & L' & m' & R & R1 & R2 & R3 & R4). exists good, L', m'. auto 8.
  - assert (ty = TString) as -> by (destruct ty, na; cbn in Ty; try discriminate Ty; reflexivity).
    destruct (strdup_ ok s m) as [p m1] eqn:Es.
    destruct (store_string_inv i L m p m1) as (L1 & E1 & V1); [apply F1; reflexivity|exact V| |].
    { intros ps O. eapply owned_strdup; eassumption. }
    rewrite E1. cbn [cbind]. destruct (IH (S i) L1 m1 F4 V1) as (good & L' & m' & R & R1 & R2 & R3 & R4).
    exists good, L', m'. auto 8.
  - assert (ty = TTable) as -> by (destruct ty, na; cbn in Ty; try discriminate Ty; reflexivity).
    pose proof V as [A B C D E F G]. unfold slots in G.
    destruct (F3 eq_refl) as [->| ->].
    + cbn [Nat.eqb]. destruct (check_owned ok l 0 (l_args L) (l_strs L ++ l_env L) m) as (good & size' & dst' & m1 & R & R1 & R2 & R3 & R4 & R5).
      { lia. } { exact B. } { apply E; lia. }
      { eapply owned_perm; [exact G|]. rewrite !somes_app, !app_assoc. apply Permutation_app_tail, Permutation_app_comm. }
      rewrite R. cbn [cbind]. rewrite Nat.sub_0_r in R5.
      assert (forall d, owned (d ++ l_strs L ++ l_env L) m1 -> owned (l_strs L ++ d ++ l_env L) m1) as Mv.
      { intros d O. eapply owned_perm; [exact O|]. rewrite !somes_app, !app_assoc. apply Permutation_app_tail, Permutation_app_comm. }
      destruct (checkstringtable l 255) as [ss|]; subst good.
      * destruct (set_slot_ok dst' size' None) as (a' & E1 & E2 & E3 & E4). { apply R3; lia. }
        rewrite E1. cbn [cbind].
        match goal with |- context [read_args_ ok t masks _ ?X m1] => set (L1 := X) end.
        assert (inv 12 L1 m1) as V1.
        { constructor; cbn; try assumption; try (intros; lia); try congruence.
          - intros j J J2. rewrite A in J2. lia.
          - intros _. apply F; lia.
          - unfold slots. cbn. apply Mv. eapply owned_perm; [exact R4|]. rewrite !(somes_app _ (l_strs L ++ l_env L)). apply Permutation_app_tail. symmetry. exact E3. }
        destruct (IH 12 L1 m1 F4 V1) as (good & L' & m' & Q & Q1 & Q2 & Q3 & Q4). exists good, L', m'. auto 8.
      * eexists false, _, m1. split; [reflexivity|]. cbn. split; [exact R2|]. split; [exact C|]. split; [|reflexivity]. apply Mv, R4.
    + cbn [Nat.eqb]. destruct (check_owned ok l 0 (l_env L) (l_strs L ++ l_args L) m) as (good & size' & dst' & m1 & R & R1 & R2 & R3 & R4 & R5).
      { lia. } { exact C. } { apply F; lia. }
      { eapply owned_perm; [exact G|]. rewrite !somes_app, (app_assoc (somes (l_strs L))). apply Permutation_app_comm. }
      rewrite R. cbn [cbind]. rewrite Nat.sub_0_r in R5.
      assert (forall d, owned (d ++ l_strs L ++ l_args L) m1 -> owned (l_strs L ++ l_args L ++ d) m1) as Mv.
      { intros d O. eapply owned_perm; [exact O|]. rewrite !somes_app, (app_assoc (somes (l_strs L))). apply Permutation_app_comm. }
      destruct (checkstringtable l 255) as [ss|]; subst good.
      * destruct (set_slot_ok dst' size' None) as (a' & E1 & E2 & E3 & E4). { apply R3; lia. }
        rewrite E1. cbn [cbind].
        match goal with |- context [read_args_ ok t masks _ ?X m1] => set (L1 := X) end.
        assert (inv 13 L1 m1) as V1.
        { constructor; cbn; try assumption; try (intros; lia); try congruence.
          - intros j J J2. rewrite A in J2. lia.
          - unfold slots. cbn. apply Mv. eapply owned_perm; [exact R4|]. rewrite !(somes_app _ (l_strs L ++ l_args L)). apply Permutation_app_tail. symmetry. exact E3. }
        destruct (IH 13 L1 m1 F4 V1) as (good & L' & m' & Q & Q1 & Q2 & Q3 & Q4). exists good, L', m'. auto 8.
      * eexists false, _, m1. split; [reflexivity|]. cbn. split; [exact B|]. split; [exact R2|]. split; [|reflexivity]. apply Mv, R4.
  - destruct (IH (S i) L m F4 (inv_next _ _ _ V)) as (good & L' & m' & R & R1 & R2 & R3 & R4). exists good, L', m'. auto 8.
Qed.

Lemma inv_start : inv 0 zero_lconf (mkMem [] 0).
Proof.
  assert (forall k n, empty_from k (repeat None n)) as E.
  { intros k n i _ J. clear k. revert i J. induction n as [|n IHn]; intros i J; [inversion J|].
    destruct i as [|i]; [reflexivity|]. cbn in *. apply IHn. lia. }
  constructor; try reflexivity; try (intros; apply E).
  split; [|split; [constructor|intros i []]]. unfold slots, zero_lconf, l_strs, l_args, l_env. rewrite !somes_app, !somes_none. constructor.
Qed.

Theorem lua_memory ok t : exists m', global_judge_ ok t =
    Val (match read_config t with inl _ => true | inr _ => false end, m') /\ m_live m' = [].
Proof.
  destruct (loop_ok ok t arg_mask 0 zero_lconf (mkMem [] 0) arg_mask_fits inv_start) as (good & L' & m1 & R & R1 & R2 & R3 & R4).
  destruct (destory_ok L' m1 R1 R2 R3) as (m2 & E & N). exists m2. unfold global_judge_, read_config_, read_config. rewrite R. cbn [cbind].
  rewrite E. cbn [cbind]. rewrite <- (R4 zero_config). split; [reflexivity|exact N].
Qed.

(** ** What run() sees through the pointers *)
Definition or_empty (x : option str) : str := match x with Some s => s | None => [] end.
Definition viewed (L : lconf) (l : list (nat * str)) : config :=
  let n := l_nums L in let s i := string_of L l i in
  mkConfig (max_cpu_time n) (max_real_time n) (max_memory n) (max_stack n) (max_process_number n) (max_output_size n)
    (memory_limit_check_only n) (or_empty (s 0)) (s 1) (s 2) (s 3) (map (cell_of l) (l_args L)) (map (cell_of l) (l_env L))
    (or_empty (s 4)) (s 5) (uid n) (gid n).

Definition old (m : mem) (p : ptr) : Prop := match p with Some i => i < m_calls m | None => True end.
(** Later memory: what was there is still there. *)
Definition later (m m' : mem) : Prop :=
  m_calls m <= m_calls m' /\ forall p, old m p -> deref p (m_live m') = deref p (m_live m).

Lemma later_refl m : later m m.
Proof. split; [lia|auto]. Qed.
Lemma later_trans a b c : later a b -> later b c -> later a c.
Proof.
  intros (A1 & A2) (B1 & B2). split; [lia|]. intros p O. rewrite B2, A2; [reflexivity|exact O|].
  destruct p; cbn in *; [lia|exact Logic.I].
Qed.

Lemma deref_none l : deref None l = None.
Proof. destruct l; reflexivity. Qed.

Lemma strdup_later s m p m' : strdup_ (fun _ => true) s m = (p, m') ->
  later m m' /\ deref p (m_live m') = Some (strdup s) /\ old m' p.
Proof.
  intros H. injection H as <- <-. split; [|split; [cbn; rewrite Nat.eqb_refl; reflexivity|cbn; lia]].
  split; [cbn; lia|]. intros [i|] O; [|rewrite !deref_none; reflexivity]. cbn in O |- *.
  destruct (Nat.eqb_spec i (m_calls m)); [lia|reflexivity].
Qed.

Lemma owned_old ps m p : owned ps m -> In p ps -> old m p.
Proof.
  intros (A & _ & C) I. destruct p as [i|]; [|exact Logic.I]. apply C. eapply Permutation_in; [symmetry; exact A|].
  apply in_flat_map. exists (Some i). split; [exact I|left; reflexivity].
Qed.

Lemma viewed_later L m m' : owned (slots L) m -> later m m' -> viewed L (m_live m') = viewed L (m_live m).
Proof.
  intros O (_ & H).
  assert (forall p, In p (slots L) -> deref p (m_live m') = deref p (m_live m)) as D by (intros p I; apply H; eapply owned_old; eassumption).
  assert (forall i, string_of L (m_live m') i = string_of L (m_live m) i) as St.
  { intros i. unfold string_of. destruct (nth_in_or_default i (l_strs L) None) as [I|E].
    - apply D. unfold slots. apply in_or_app. left. exact I.
    - rewrite E, !deref_none. reflexivity. }
  unfold viewed. rewrite !St. f_equal; apply map_ext_in; intros p I; unfold cell_of; rewrite D; try reflexivity;
    unfold slots; rewrite !in_app_iff; auto.
Qed.

Lemma check_value l : forall ss size dst m, checkstringtable l (255 - size) = Some ss -> size <= 255 -> List.length dst = 256 ->
  exists ps m', checkstringtable_ (fun _ => true) l 255 size dst m =
      Val (true, size + List.length ss, firstn size dst ++ ps ++ skipn (size + List.length ss) dst, m') /\
    later m m' /\ map (fun p => deref p (m_live m')) ps = map Some ss /\ (forall p, In p ps -> old m' p).
Proof.
  induction l as [|[k v] l IH]; intros ss size dst m H S1 Ld.
  - injection H as <-. exists [], m. cbn. rewrite Nat.add_0_r, firstn_skipn. split; [reflexivity|]. split; [apply later_refl|]. split; [reflexivity|intros p []].
  - cbn [checkstringtable] in H. destruct k; try discriminate H. destruct v; try discriminate H.
    destruct (255 - size) as [|k] eqn:K; [discriminate H|]. destruct (checkstringtable l k) as [r|] eqn:R; [|discriminate H]. injection H as <-.
    cbn [checkstringtable_]. destruct (Nat.eqb_spec size 255); [lia|].
    destruct (strdup_ (fun _ => true) s m) as [p m1] eqn:Es. destruct (strdup_later s m p m1 Es) as (L1 & D1 & O1).
    unfold set_slot. rewrite (proj2 (Nat.ltb_lt size (List.length dst))) by lia. cbn [cbind].
    set (dst1 := firstn size dst ++ [p] ++ skipn (S size) dst).
    assert (List.length dst1 = 256) as Ld1 by (unfold dst1; rewrite !app_length, firstn_length, skipn_length; cbn [List.length]; lia).
    destruct (IH r (S size) dst1 m1) as (ps & m2 & E & L2 & V & O2).
    { replace (255 - S size) with k by lia. exact R. } { lia. } { exact Ld1. }
    exists (p :: ps), m2. rewrite E. split; [|split; [eapply later_trans; eassumption|split]].
    + cbn [List.length]. replace (S size + List.length r) with (size + S (List.length r)) by lia. do 3 f_equal.
      assert (List.length (firstn size dst) = size) as Lf by (rewrite firstn_length; lia).
      unfold dst1. rewrite firstn_app, Lf. rewrite (firstn_all2 (n := S size)) by lia. replace (S size - size) with 1 by lia. cbn [firstn app].
      rewrite <- app_assoc. cbn [app]. do 3 f_equal. rewrite skipn_app, Lf, (skipn_all2 (firstn size dst)) by lia. cbn [app].
      replace (size + S (List.length r) - size) with (S (List.length r)) by lia.
      assert (forall (l : list ptr) a b, skipn a (skipn b l) = skipn (b + a) l) as Sk.
      { clear. intros l a b. revert l. induction b as [|b IHb]; intros [|x l]; try reflexivity; [destruct a; reflexivity|apply IHb]. }
      rewrite skipn_cons, Sk. f_equal. lia.
    + cbn. f_equal; [|exact V]. rewrite <- D1. apply L2. exact O1.
    + intros q [<-|I]; [|apply O2, I]. destruct L2 as [L2 _]. destruct p; cbn in *; [lia|exact Logic.I].
Qed.

Lemma cells_viewed l ss ps n : map (fun p => deref p l) ps = map Some ss -> n = 256 - List.length ss ->
  map (cell_of l) (ps ++ repeat None n) = cells ss.
Proof.
  intros H ->. unfold cells. rewrite map_app. f_equal.
  - revert ps H. induction ss as [|s ss IH]; intros [|p ps] H; try discriminate H; [reflexivity|].
    cbn in H. injection H as H1 H2. cbn. unfold cell_of at 1. rewrite H1. f_equal. apply IH, H2.
  - generalize (256 - List.length ss). intros k. induction k as [|k IHk]; [reflexivity|]. cbn. rewrite IHk. unfold cell_of. rewrite deref_none. reflexivity.
Qed.

(** Every string field below number [i] has been set. *)
Definition strs_set (i : nat) (L : lconf) (l : list (nat * str)) : Prop :=
  forall j, j < 5 -> 5 + j < i -> string_of L l j <> None.

Lemma check_length l n ss : checkstringtable l n = Some ss -> List.length ss <= n.
Proof.
  revert n ss. induction l as [|[k v] l IH]; intros n ss H; [injection H as <-; cbn; lia|]. cbn in H.
  destruct k; try discriminate H. destruct v; try discriminate H. destruct n; [discriminate H|].
  destruct (checkstringtable l n) eqn:E; [|discriminate H]. injection H as <-. cbn. apply IH in E. lia.
Qed.

Lemma empty_repeat (a : list ptr) n : empty_from n a -> skipn n a = repeat None (List.length a - n).
Proof.
  revert n. induction a as [|x a IH]; intros n E; [destruct n; reflexivity|].
  destruct n as [|n].
  - assert (x = None) as -> by (specialize (E 0 (Nat.le_refl 0)); cbn in E; assert (Some x = Some None) as X by (apply E; lia); congruence).
    cbn. f_equal. specialize (IH 0). cbn in IH. rewrite Nat.sub_0_r in IH. apply IH. intros i _ J. apply (E (S i)); cbn; lia.
  - cbn. apply IH. intros i I J. apply (E (S i)); cbn; lia.
Qed.

Lemma store_string_view i L l p s : 5 <= i <= 10 -> List.length (l_strs L) = 6 -> deref p l = Some s ->
  exists L', store_string_ i p L = Val L' /\ viewed L' l = store_string i s (viewed L l) /\
    (strs_set i L l -> strs_set (S i) L' l).
Proof.
  intros I Ls D. destruct L as [n strs a e]. cbn [l_strs] in Ls.
  destruct strs as [|s0 [|s1 [|s2 [|s3 [|s4 [|s5 [|? ?]]]]]]]; try discriminate Ls.
  do 5 (destruct i as [|i]; [lia|]).
  do 6 (destruct i as [|i]; [unfold store_string_, set_slot; cbn [l_strs Nat.leb Nat.sub andb Nat.ltb List.length firstn skipn app cbind];
    eexists; split; [reflexivity|]; split;
    [unfold viewed, string_of; cbn [l_strs l_nums l_args l_env nth]; rewrite D; reflexivity
    |intros H j J K; unfold strs_set, string_of in *; cbn [l_strs l_nums l_args l_env] in *;
       do 5 (destruct j as [|j]; [first [cbn [nth]; rewrite D; discriminate | refine (H _ J _); lia | lia]|]); lia]|]).
  lia.
Qed.

Lemma store_nil_view L l : List.length (l_strs L) = 6 ->
  exists L', store_string_ 10 None L = Val L' /\ viewed L' l = store_nil 10 (viewed L l) /\
    (strs_set 10 L l -> strs_set 11 L' l).
Proof.
  intros Ls. destruct L as [n strs a e]. cbn [l_strs] in Ls.
  destruct strs as [|s0 [|s1 [|s2 [|s3 [|s4 [|s5 [|? ?]]]]]]]; try discriminate Ls.
  unfold store_string_, set_slot; cbn [l_strs Nat.leb Nat.sub andb Nat.ltb List.length firstn skipn app cbind].
  eexists; split; [reflexivity|]; split.
  - unfold viewed, string_of; cbn [l_strs l_nums l_args l_env nth]. rewrite deref_none. reflexivity.
  - intros H j J K. unfold strs_set, string_of in *. cbn [l_strs] in *.
    do 5 (destruct j as [|j]; [refine (H _ J _); lia|]). lia.
Qed.

Lemma store_number_view i n L l : viewed (mkL (store_number i n (l_nums L)) (l_strs L) (l_args L) (l_env L)) l = store_number i n (viewed L l).
Proof. do 15 (destruct i as [|i]; [reflexivity|]). reflexivity. Qed.

(** Strings may be nil only as seccomp_rule_name. *)
Fixpoint nil_fits (masks : list (string * ltype * bool)) (i : nat) : Prop :=
  match masks with
  | [] => True
  | (_, ty, na) :: masks => (na = true -> i = 10) /\ (5 <= i <= 9 -> ty = TString) /\ nil_fits masks (S i)
  end.

Lemma arg_mask_nil_fits : nil_fits arg_mask 0.
Proof. cbn. intuition (try discriminate; lia). Qed.

Lemma strs_set_later i L m m' : owned (slots L) m -> later m m' -> strs_set i L (m_live m) -> strs_set i L (m_live m').
Proof.
  intros O (_ & H) S j J K. unfold string_of. rewrite H; [exact (S j J K)|].
  destruct (nth_in_or_default j (l_strs L) None) as [I|E]; [|rewrite E; exact Logic.I].
  eapply owned_old; [exact O|]. unfold slots. apply in_or_app. left. exact I.
Qed.

Lemma strs_set_skip i L l : ~ (5 <= i <= 9) -> strs_set i L l -> strs_set (S i) L l.
Proof. intros N S j J K. apply S; lia. Qed.

(** A table that is accepted. *)
Lemma table_value l ss dst rest m : checkstringtable l 255 = Some ss -> List.length dst = 256 -> empty_from 0 dst -> owned (dst ++ rest) m ->
  exists size dst1 dst2 m1, checkstringtable_ (fun _ => true) l 255 0 dst m = Val (true, size, dst1, m1) /\
    set_slot dst1 size None = Val dst2 /\ List.length dst2 = 256 /\ owned (dst2 ++ rest) m1 /\ later m m1 /\
    map (cell_of (m_live m1)) dst2 = cells ss.
Proof.
  intros Ck Ld Em O. pose proof (check_length _ _ _ Ck) as Cl.
  destruct (check_value l ss 0 dst m) as (ps & m1 & E1 & La & Vl & Op); [exact Ck|lia|exact Ld|].
  destruct (check_owned (fun _ => true) l 0 dst rest m) as (good1 & size1 & dst1 & m1' & R0 & R1 & R2 & R3 & R4 & R5);
    [lia|exact Ld|exact Em|exact O|].
  rewrite E1 in R0. injection R0 as <- <- <- <-. cbn [Nat.add firstn app] in *.
  pose proof (R3 (List.length ss) (Nat.le_refl _) ltac:(lia)) as Rn.
  destruct (set_slot_ok _ (List.length ss) None Rn) as (dst2 & E2 & E3 & E4 & E5).
  exists (List.length ss), (ps ++ skipn (List.length ss) dst), dst2, m1. split; [exact E1|]. split; [exact E2|]. split; [congruence|].
  split; [|split; [exact La|]].
  - eapply owned_perm; [exact R4|]. rewrite !(somes_app _ rest). apply Permutation_app_tail. symmetry. exact E4.
  - assert (dst2 = ps ++ repeat None (256 - List.length ss)) as ->.
    { assert (skipn (List.length ss) dst = repeat None (256 - List.length ss)) as <-.
      { rewrite <- Ld. apply empty_repeat. intros j J K. apply Em; lia. }
      rewrite E5. revert Rn. clear. generalize (List.length ss) (ps ++ skipn (List.length ss) dst).
      intros k x. revert k. induction x as [|y x IHx]; intros [|k] Hk; try discriminate Hk; [injection Hk as ->; reflexivity|].
      cbn. f_equal. apply IHx. exact Hk. }
    apply cells_viewed; [exact Vl|reflexivity].
Qed.

Lemma viewed_table (first : bool) L l d ss : map (cell_of l) d = cells ss ->
  viewed (if first then mkL (l_nums L) (l_strs L) d (l_env L) else mkL (l_nums L) (l_strs L) (l_args L) d) l =
  store_table (if first then 11 else 12) (cells ss) (viewed L l).
Proof. intros <-. destruct first; reflexivity. Qed.

Lemma loop_value t masks : forall i L m c', fits masks i -> nil_fits masks i -> inv i L m -> strs_set i L (m_live m) ->
  read_args t masks i (viewed L (m_live m)) = inl c' ->
  exists L' m', read_args_ (fun _ => true) t masks i L m = Val (true, L', m') /\ viewed L' (m_live m') = c' /\
    strs_set (i + List.length masks) L' (m_live m').
Proof.
  induction masks as [|[[name ty] na] masks IH]; intros i L m c' Ft Nf V Ss H.
  { injection H as <-. exists L, m. rewrite Nat.add_0_r. auto. }
  destruct Ft as (F1 & F2 & F3 & F4). destruct Nf as (N1 & N2 & N3). cbn [read_args_ read_args] in *.
  cbn [List.length]. replace (i + S (List.length masks)) with (S i + List.length masks) by lia.
  destruct (negb (has_type ty (lookup t (lit name))) && negb (na && is_nil (lookup t (lit name)))) eqn:Ty; [discriminate H|].
  destruct (lookup t (lit name)) as [|b|n|s|l|] eqn:Lk.
  - assert (na = true) as Na by (destruct na, ty; cbn in Ty; try discriminate Ty; reflexivity).
    rewrite (N1 Na) in *. destruct (store_nil_view L (m_live m) (i_strs _ _ _ V)) as (L1 & E1 & E2 & E3).
    destruct (store_string_inv 10 L m None m) as (L1' & E1' & V1); [lia|exact V|intros ps O; exact O|].
    assert (L1' = L1) as -> by congruence. rewrite E1. cbn [cbind]. rewrite <- E2 in H.
    exact (IH 11 L1 m c' F4 N3 V1 (E3 Ss) H).
  - destruct ty, na; discriminate Ty.
  - assert (ty = TNumber) as -> by (destruct ty, na; cbn in Ty; try discriminate Ty; reflexivity).
    assert (~ (5 <= i <= 9)) as Ni by (intros X; discriminate (N2 X)).
    rewrite <- store_number_view in H. apply (IH (S i) _ m c' F4 N3); [|apply strs_set_skip; assumption|exact H].
    apply inv_next in V. destruct V. constructor; assumption.
  - assert (ty = TString) as -> by (destruct ty, na; cbn in Ty; try discriminate Ty; reflexivity).
    destruct (strdup_ (fun _ => true) s m) as [p m1] eqn:Es. destruct (strdup_later s m p m1 Es) as (La & D & O).
    destruct (store_string_view i L (m_live m1) p (strdup s)) as (L1 & E1 & E2 & E3); [apply F1; reflexivity|exact (i_strs _ _ _ V)|exact D|].
    destruct (store_string_inv i L m p m1) as (L1' & E1' & V1); [apply F1; reflexivity|exact V|intros ps Op; eapply owned_strdup; eassumption|].
    assert (L1' = L1) as -> by congruence. rewrite E1. cbn [cbind].
    rewrite <- (viewed_later L m m1 (i_own _ _ _ V) La), <- E2 in H.
    apply (IH (S i) L1 m1 c' F4 N3 V1); [|exact H]. apply E3. eapply strs_set_later; [apply V|exact La|exact Ss].
  - assert (ty = TTable) as -> by (destruct ty, na; cbn in Ty; try discriminate Ty; reflexivity).
    destruct (checkstringtable l 255) as [ss|] eqn:Ck; [|discriminate H].
    assert (~ (5 <= i <= 9)) as Ni by (intros X; discriminate (N2 X)).
    pose proof V as [A B C D E F G]. unfold slots in G.
    destruct (F3 eq_refl) as [->| ->].
    + cbn [Nat.eqb] in *.
      destruct (table_value l ss (l_args L) (l_strs L ++ l_env L) m Ck B (E (Nat.le_refl _))) as (size & d1 & d2 & m1 & E1 & E2 & E3 & E4 & E5 & E6).
      { eapply owned_perm; [exact G|]. rewrite !somes_app, !app_assoc. apply Permutation_app_tail, Permutation_app_comm. }
      rewrite E1. cbn [cbind]. rewrite E2. cbn [cbind].
      rewrite <- (viewed_later L m m1 (i_own _ _ _ V) E5) in H. pose proof (viewed_table true L (m_live m1) d2 ss E6) as Vt. cbn iota in Vt. rewrite <- Vt in H.
      apply (IH 12 _ m1 c' F4 N3); [|apply strs_set_skip; [lia|]; apply (strs_set_later 11 L m m1 (i_own _ _ _ V) E5 Ss)|exact H].
      constructor; cbn [l_strs l_args l_env]; try assumption; try (intros; lia).
      * intros j J J2. rewrite A in J2. lia.
      * intros _. apply F; lia.
      * unfold slots. cbn [l_strs l_args l_env]. eapply owned_perm; [exact E4|]. rewrite !somes_app, !app_assoc. apply Permutation_app_tail, Permutation_app_comm.
    + cbn [Nat.eqb] in *.
      destruct (table_value l ss (l_env L) (l_strs L ++ l_args L) m Ck C (F (Nat.le_refl _))) as (size & d1 & d2 & m1 & E1 & E2 & E3 & E4 & E5 & E6).
      { eapply owned_perm; [exact G|]. rewrite !somes_app, (app_assoc (somes (l_strs L))). apply Permutation_app_comm. }
      rewrite E1. cbn [cbind]. rewrite E2. cbn [cbind].
      rewrite <- (viewed_later L m m1 (i_own _ _ _ V) E5) in H. pose proof (viewed_table false L (m_live m1) d2 ss E6) as Vt. cbn iota in Vt. rewrite <- Vt in H.
      apply (IH 13 _ m1 c' F4 N3); [|apply strs_set_skip; [lia|]; apply (strs_set_later 12 L m m1 (i_own _ _ _ V) E5 Ss)|exact H].
      constructor; cbn [l_strs l_args l_env]; try assumption; try (intros; lia).
      * intros j J J2. rewrite A in J2. lia.
      * unfold slots. cbn [l_strs l_args l_env]. eapply owned_perm; [exact E4|]. rewrite !somes_app, (app_assoc (somes (l_strs L))). apply Permutation_app_comm.
  - destruct ty, na; discriminate Ty.
Qed.

Lemma viewed_points L l c : viewed L l = c -> strs_set 15 L l -> points_to L l c.
Proof.
  intros <- S. pose proof (S 0 ltac:(lia) ltac:(lia)) as S0. pose proof (S 4 ltac:(lia) ltac:(lia)) as S4.
  split; unfold viewed; cbn; try reflexivity.
  - destruct (string_of L l 0); [reflexivity|congruence].
  - destruct (string_of L l 4); [reflexivity|congruence].
Qed.

Theorem lua_configuration t c : read_config t = inl c ->
  exists L m, read_config_ (fun _ => true) t = Val (true, L, m) /\ points_to L (m_live m) c.
Proof.
  intros H. unfold read_config in H. change zero_config with (viewed zero_lconf []) in H.
  destruct (loop_value t arg_mask 0 zero_lconf (mkMem [] 0) c arg_mask_fits arg_mask_nil_fits inv_start) as (L & m & E & V & S).
  - intros j J K. lia.
  - exact H.
  - exists L, m. split; [exact E|]. apply viewed_points; [exact V|exact S].
Qed.

Lemma lua_accepts t : (exists c, lua_config [LTable t] = Some c) <-> (exists c, read_config t = inl c).
Proof.
  unfold lua_config. cbn [last_table hd_error last]. destruct (read_config t); split; intros (x & E); try discriminate E; eexists; reflexivity.
Qed.

Theorem c70_memory ok t : exists called m, global_judge_ ok t = Val (called, m) /\ m_live m = [] /\
  (called = true <-> exists c, lua_config [LTable t] = Some c).
Proof.
  destruct (lua_memory ok t) as (m & E & M). eexists _, m. split; [exact E|]. split; [exact M|].
  rewrite lua_accepts. destruct (read_config t); split; intros X; try discriminate X; try reflexivity; [eexists; reflexivity|destruct X; discriminate].
Qed.

Theorem c70_configuration t c : lua_config [LTable t] = Some c ->
  exists L m, read_config_ (fun _ => true) t = Val (true, L, m) /\ points_to L (m_live m) c.
Proof.
  unfold lua_config. cbn [last_table hd_error last]. destruct (read_config t) eqn:E; [|discriminate]. intros H. injection H as ->.
  exact (lua_configuration _ _ E).
Qed.
