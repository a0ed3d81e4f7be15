From Coq Require Import ZArith Bool List Lia.
From Verif.Base Require Import CInt.
From Verif.Model Require Import Tables.
From Verif.Spec Require Import TableSpec.
Import ListNotations.
Open Scope Z_scope.

Lemma terminator_odd f : terminator f = Z.odd f.
Proof. unfold terminator, ARG_TERMINATOR. change 1 with (Z.ones 1). rewrite (Z.land_ones f 1) by lia. change (2 ^ 1) with 2. rewrite Zmod_odd.
  destruct (Z.odd f); reflexivity. Qed.

Lemma next_ok i : 0 <= i < INT_MAX -> next i = Val (i + 1).
Proof. intros H. unfold next, int_op. assert (in_int (i + 1) = true) as -> by (apply in_int_iff; unfold INT_MIN, INT_MAX in *; lia).
  reflexivity. Qed.

(** ** arg_nullcheck *)
Lemma nullcheck_complete h t l s : up_to_end h t l s -> forall i, 0 <= i -> i + Z.of_nat (length t) <= INT_MAX ->
  nullcheck_from h i t = Val (match s with AtNull => 1 | AtEnd => 0 end).
Proof.
  induction 1 as [t | a t [f [E O]] | a t l s [f [E O]] U IH]; intros i P L; cbn [nullcheck_from].
  - reflexivity.
  - cbn [length] in L. rewrite next_ok by lia. cbn [cbind]. unfold read_flag. rewrite E. cbn [cbind].
    rewrite terminator_odd, O. reflexivity.
  - cbn [length] in L. rewrite next_ok by lia. cbn [cbind]. unfold read_flag. rewrite E. cbn [cbind].
    rewrite terminator_odd, O. apply IH; lia.
Qed.

Lemma nullcheck_sound h t : forall i r, nullcheck_from h i t = Val r ->
  exists l s, up_to_end h t l s /\ r = match s with AtNull => 1 | AtEnd => 0 end.
Proof.
  induction t as [|[a|] t IH]; intros i r; cbn [nullcheck_from]; [discriminate| |].
  - destruct (next i) as [j|]; cbn [cbind]; [|discriminate]. unfold read_flag.
    destruct (h a) as [f|] eqn:E; cbn [cbind]; [|discriminate]. rewrite terminator_odd. destruct (Z.odd f) eqn:O.
    + intros [= <-]. exists [a], AtEnd. split; [|reflexivity]. constructor. exists f. now split.
    + intros H. destruct (IH _ _ H) as [l [s [U ->]]]. exists (a :: l), s. split; [|reflexivity].
      constructor; [|exact U]. exists f. now split.
  - intros [= <-]. exists [], AtNull. split; [constructor|reflexivity].
Qed.

Lemma nullcheck_iff h t r : Z.of_nat (length t) <= INT_MAX ->
  arg_nullcheck h (Some t) = Val r <-> exists l s, up_to_end h t l s /\ r = match s with AtNull => 1 | AtEnd => 0 end.
Proof.
  intros L. split.
  - apply nullcheck_sound.
  - intros [l [s [U ->]]]. apply (nullcheck_complete h t l s U); lia.
Qed.

(** ** Frames *)
Lemma drop_same h a : drop_object h a a = None.
Proof. unfold drop_object. now rewrite Z.eqb_refl. Qed.
Lemma drop_other h a b : b <> a -> drop_object h a b = h b.
Proof. intros N. unfold drop_object. now rewrite (proj2 (Z.eqb_neq b a) N). Qed.
Lemma put_same h a f : put_object h a f a = Some f.
Proof. unfold put_object. now rewrite Z.eqb_refl. Qed.
Lemma put_other h a f b : b <> a -> put_object h a f b = h b.
Proof. intros N. unfold put_object. now rewrite (proj2 (Z.eqb_neq b a) N). Qed.

Lemma without_nil h : without h [] h.
Proof. intros a. split; [intros []|reflexivity]. Qed.

Lemma without_cons h a l h' : without (drop_object h a) l h' -> without h (a :: l) h'.
Proof.
  intros W b. destruct (W b) as [W1 W2]. split.
  - intros [<- | I]; [|exact (W1 I)]. destruct (in_dec Z.eq_dec a l) as [I|I]; [exact (W1 I)|].
    rewrite (W2 I). apply drop_same.
  - intros N. cbn in N. rewrite W2 by tauto. apply drop_other. intros ->. tauto.
Qed.

Lemma ute_drop h a t l s : ~ In a l -> up_to_end h t l s -> up_to_end (drop_object h a) t l s.
Proof.
  intros N. induction 1 as [t | b t [f [E O]] | b t l s [f [E O]] U IH]; constructor.
  - exists f. rewrite drop_other by (intros ->; apply N; now left). now split.
  - exists f. rewrite drop_other by (intros ->; apply N; now left). now split.
  - apply IH. intros I. apply N. now right.
Qed.

Lemma ute_drop_inv h a t l s : up_to_end (drop_object h a) t l s -> up_to_end h t l s /\ ~ In a l.
Proof.
  assert (D : forall b f, drop_object h a b = Some f -> b <> a /\ h b = Some f).
  { intros b f E. assert (b <> a) as N by (intros ->; rewrite drop_same in E; discriminate).
    split; [exact N|]. now rewrite drop_other in E. }
  induction 1 as [t | b t [f [E O]] | b t l s [f [E O]] U [IH NI]].
  - split; [constructor|intros []].
  - destruct (D _ _ E) as [N E']. split; [constructor; exists f; now split|]. intros [X | []]. now apply N.
  - destruct (D _ _ E) as [N E']. split; [constructor; [exists f; now split|exact IH]|].
    intros [X | X]; [now apply N|tauto].
Qed.

(** ** arg_free *)
Lemma free_complete t : forall h l s i, up_to_end h t l s -> NoDup l -> 0 <= i -> i + Z.of_nat (length t) <= INT_MAX ->
  exists h', free_from h i t = Val (cut l t, h') /\ without h l h'.
Proof.
  induction t as [|c t IH]; intros h l s i U D P L; [inversion U|].
  inversion U as [t0|a t0 [f [E O]]|a t0 l0 s0 [f [E O]] U0]; subst; cbn [length] in L; cbn [free_from].
  - exists h. split; [reflexivity|apply without_nil].
  - unfold read_flag. rewrite E. cbn [cbind]. unfold xfree. rewrite E. cbn [cbind].
    rewrite next_ok by lia. cbn [cbind]. rewrite terminator_odd, O.
    exists (drop_object h a). split; [reflexivity|apply without_cons, without_nil].
  - unfold read_flag. rewrite E. cbn [cbind]. unfold xfree. rewrite E. cbn [cbind].
    rewrite next_ok by lia. cbn [cbind]. rewrite terminator_odd, O. inversion D as [|x y N D']; subst.
    destruct (IH (drop_object h a) l0 s (i + 1) (ute_drop h a t l0 s N U0) D') as [h' [-> W]]; [lia|lia|].
    cbn [cbind]. exists h'. split; [reflexivity|]. apply without_cons, W.
Qed.

Lemma free_sound t : forall h i t' h', free_from h i t = Val (t', h') ->
  exists l s, up_to_end h t l s /\ NoDup l /\ t' = cut l t /\ without h l h'.
Proof.
  induction t as [|[a|] t IH]; intros h i t' h'; cbn [free_from]; [discriminate| |].
  - unfold read_flag. destruct (h a) as [f|] eqn:E; cbn [cbind]; [|discriminate]. unfold xfree. rewrite E. cbn [cbind].
    destruct (next i) as [j|]; cbn [cbind]; [|discriminate]. rewrite terminator_odd. destruct (Z.odd f) eqn:O.
    + intros [= <- <-]. exists [a], AtEnd. split; [constructor; exists f; now split|].
      split; [constructor; [intros []|constructor]|]. split; [reflexivity|apply without_cons, without_nil].
    + destruct (free_from (drop_object h a) j t) as [[u g]|] eqn:F; cbn [cbind]; [|discriminate]. intros [= <- <-].
      destruct (IH _ _ _ _ F) as [l [s [U [D [-> W]]]]]. destruct (ute_drop_inv h a t l s U) as [U' N].
      exists (a :: l), s. split; [constructor; [exists f; now split|exact U']|].
      split; [constructor; assumption|]. split; [reflexivity|apply without_cons, W].
  - intros [= <- <-]. exists [], AtNull. split; [constructor|]. split; [constructor|]. split; [reflexivity|apply without_nil].
Qed.

(** ** arg_freetable *)
Lemma freetable_complete n : forall h t, (n <= length t)%nat -> NoDup (addresses (firstn n t)) ->
  alive h (addresses (firstn n t)) ->
  exists h', arg_freetable h t n = Val (repeat None n ++ skipn n t, h') /\ without h (addresses (firstn n t)) h'.
Proof.
  induction n as [|n IH]; intros h t L D A; cbn [arg_freetable].
  - exists h. split; [reflexivity|apply without_nil].
  - destruct t as [|[a|] t]; [cbn in L; lia| |]; cbn [firstn addresses length] in *.
    + inversion D as [|x y N D']; subst. unfold xfree. destruct (h a) as [f|] eqn:E;
        [|exfalso; apply (A a); [now left|exact E]]. cbn [cbind].
      destruct (IH (drop_object h a) t) as [h' [-> W]]; [lia|exact D'| |].
      { intros b I. rewrite drop_other by (intros ->; tauto). apply A. now right. }
      cbn [cbind]. exists h'. split; [reflexivity|apply without_cons, W].
    + destruct (IH h t) as [h' [-> W]]; [lia|exact D|exact A|]. exists h'. split; [reflexivity|exact W].
Qed.

Lemma freetable_sound n : forall h t t' h', arg_freetable h t n = Val (t', h') ->
  (n <= length t)%nat /\ NoDup (addresses (firstn n t)) /\ alive h (addresses (firstn n t)) /\
  t' = repeat None n ++ skipn n t /\ without h (addresses (firstn n t)) h'.
Proof.
  induction n as [|n IH]; intros h t t' h'; cbn [arg_freetable].
  - intros [= <- <-]. split; [lia|]. split; [constructor|]. split; [intros a []|]. split; [reflexivity|apply without_nil].
  - destruct t as [|[a|] t]; [discriminate| |]; cbn [firstn addresses length skipn repeat app].
    + unfold xfree. destruct (h a) as [f|] eqn:E; cbn [cbind]; [|discriminate].
      destruct (arg_freetable (drop_object h a) t n) as [[u g]|] eqn:F; cbn [cbind]; [|discriminate].
      intros [= <- <-]. destruct (IH _ _ _ _ F) as [L [D [A [-> W]]]]. split; [lia|]. split.
      { constructor; [|exact D]. intros I. apply (A a I), drop_same. }
      split. { intros b [<- | I]; [rewrite E; discriminate|]. intros X. apply (A b I). unfold drop_object. rewrite X.
        destruct (b =? a); reflexivity. }
      split; [reflexivity|apply without_cons, W].
    + destruct (arg_freetable h t n) as [[u g]|] eqn:F; cbn [cbind]; [|discriminate].
      intros [= <- <-]. destruct (IH _ _ _ _ F) as [L [D [A [-> W]]]].
      split; [lia|]. split; [exact D|]. split; [exact A|]. split; [reflexivity|exact W].
Qed.

(** ** Making a table *)
Lemma make_all p flags : forall h got n, sound_malloc h flags got n ->
  (forall k, (n <= k < n + asked_for flags)%nat -> got k <> None) ->
  exists t h', make_table p h flags got n = Made (t, h') /\ as_asked h' flags t /\ grown h (addresses t) h'.
Proof.
  induction flags as [|[f|] flags IH]; intros h got n S K; cbn [make_table sound_malloc asked_for] in *.
  - exists [], h. split; [reflexivity|]. split; [constructor|]. split; [constructor|].
    intros a. split; [intros []|reflexivity].
  - destruct S as [F S]. unfold new_object, xmalloc. destruct (got n) as [a|] eqn:G;
      [|exfalso; apply (K n); [lia|exact G]]. cbn [fresh_now] in F.
    destruct (IH (put_object h a f) got (Datatypes.S n) (S a eq_refl)) as [t [h' [-> [As [D Gr]]]]].
    { intros k Hk. apply K. lia. }
    assert (N : ~ In a (addresses t)).
    { intros I. destruct (proj1 (Gr a) I) as [X _]. rewrite put_same in X. discriminate. }
    assert (E : h' a = Some f) by (rewrite (proj2 (Gr a) N); apply put_same).
    exists (Some a :: t), h'. split; [reflexivity|]. split; [constructor; [exists a; now split|exact As]|].
    split; [constructor; assumption|].
    intros b. split.
    + intros [<- | I]; [split; [exact F|rewrite E; discriminate]|].
      destruct (proj1 (Gr b) I) as [X Y]. split; [|exact Y]. rewrite put_other in X; [exact X|]. intros ->. tauto.
    + cbn. intros X. rewrite (proj2 (Gr b)) by tauto. apply put_other. intros ->. tauto.
  - destruct (IH h got n S K) as [t [h' [-> [As Gr]]]]. exists (None :: t), h'. split; [reflexivity|].
    split; [constructor; [reflexivity|exact As]|exact Gr].
Qed.

Lemma make_fails p flags : forall h got n k, (n <= k < n + asked_for flags)%nat -> got k = None ->
  make_table p h flags got n = match p with PEnds => Ended | PReturns => MUndef end.
Proof.
  induction flags as [|[f|] flags IH]; intros h got n k R G; cbn [make_table asked_for] in *.
  - lia.
  - unfold new_object, xmalloc. destruct (got n) as [a|] eqn:E.
    + rewrite (IH (put_object h a f) got (S n) k); [destruct p; reflexivity| |exact G].
      assert (k <> n) by (intros ->; congruence). lia.
    + destruct p; reflexivity.
  - rewrite (IH h got n k R G). destruct p; reflexivity.
Qed.

(** ** The whole life *)
Lemma firstn_len {A} (l : list A) : firstn (length l) l = l.
Proof. apply firstn_all. Qed.

Lemma freetable_all h t : NoDup (addresses t) -> alive h (addresses t) ->
  exists h', arg_freetable h t (length t) = Val (repeat None (length t), h') /\ without h (addresses t) h'.
Proof.
  intros D A. destruct (freetable_complete (length t) h t) as [h' [E W]]; rewrite ?firstn_len; auto.
  rewrite firstn_len in W. rewrite skipn_all, app_nil_r in E. now exists h'.
Qed.

Lemma freetable_nulls h n : arg_freetable h (repeat None n) n = Val (repeat None n, h).
Proof. induction n as [|n IH]; cbn [arg_freetable repeat]; [reflexivity|]. rewrite IH. reflexivity. Qed.

Lemma free_nulls h n : n <> 0%nat -> arg_free h (repeat None n) = Val (repeat None n, h).
Proof. destruct n as [|n]; [congruence|]. reflexivity. Qed.

Lemma grown_without h l h' h'' : grown h l h' -> without h' l h'' -> same h h''.
Proof.
  intros [D G] W a. destruct (in_dec Z.eq_dec a l) as [I|I].
  - rewrite (proj1 (W a) I). symmetry. apply (proj1 (G a) I).
  - rewrite (proj2 (W a) I). apply (proj2 (G a) I).
Qed.

Lemma grown_alive h l h' : grown h l h' -> alive h' l.
Proof. intros [D G] a I. apply (proj1 (G a) I). Qed.

Lemma life_freetable h t h' : grown h (addresses t) h' ->
  exists h'', arg_freetable h' t (length t) = Val (repeat None (length t), h'') /\ same h h''.
Proof.
  intros G. destruct (freetable_all h' t (proj1 G) (grown_alive _ _ _ G)) as [h'' [E W]].
  exists h''. split; [exact E|]. exact (grown_without _ _ _ _ G W).
Qed.

Lemma addresses_app t u : addresses (t ++ u) = addresses t ++ addresses u.
Proof. induction t as [|[a|] t IH]; cbn; rewrite ?IH; reflexivity. Qed.
Lemma addresses_nulls n : addresses (repeat None n) = [].
Proof. induction n; cbn; auto. Qed.

Lemma ute_split h t l s : up_to_end h t l s -> exists u, t = map Some l ++ u /\ (s = AtNull -> exists v, u = None :: v).
Proof.
  induction 1 as [t | a t E | a t l s O U [u [-> N]]].
  - exists (None :: t). split; [reflexivity|]. intros _. now exists t.
  - exists t. split; [reflexivity|discriminate].
  - exists u. split; [reflexivity|exact N].
Qed.

Lemma addresses_some l : addresses (map Some l) = l.
Proof. induction l; cbn; congruence. Qed.

Lemma cut_split l u : cut l (map Some l ++ u) = repeat None (length l) ++ u.
Proof.
  unfold cut. f_equal. replace (length l) with (length (map Some l)) by apply map_length. rewrite skipn_app, skipn_all, Nat.sub_diag.
  reflexivity.
Qed.

(** arg_free, then arg_freetable: nothing is left and nothing is freed twice. *)
Lemma free_then_freetable h t h' t1 h1 : grown h (addresses t) h' -> arg_free h' t = Val (t1, h1) ->
  exists h2, arg_freetable h1 t1 (length t) = Val (repeat None (length t), h2) /\ same h h2.
Proof.
  intros G F. destruct (free_sound t h' 0 t1 h1 F) as [l [s [U [D [-> W]]]]].
  destruct (ute_split _ _ _ _ U) as [u [-> _]]. rewrite cut_split. rewrite addresses_app, addresses_some in G.
  assert (NDu : NoDup (addresses u) /\ forall a, In a (addresses u) -> ~ In a l).
  { destruct G as [ND _]. clear - ND. induction l as [|x l IH]; cbn in *; [split; [exact ND|tauto]|].
    inversion ND as [|y z N ND']; subst. destruct (IH ND') as [IH1 IH2]. split; [exact IH1|].
    intros a I [-> | J]; [apply N, in_or_app; now right|exact (IH2 a I J)]. }
  destruct (freetable_all h1 (repeat None (length l) ++ u)) as [h2 [E W2]].
  - rewrite addresses_app, addresses_nulls. apply NDu.
  - rewrite addresses_app, addresses_nulls. intros a I. cbn in I. rewrite (proj2 (W a)) by (apply NDu; exact I).
    apply (grown_alive _ _ _ G). apply in_or_app. now right.
  - rewrite addresses_app, addresses_nulls in W2. cbn [app] in W2.
    assert (Le : length (repeat (@None Z) (length l) ++ u) = length (map Some l ++ u)) by (rewrite !app_length, repeat_length, map_length; reflexivity).
    rewrite Le in E. exists h2. split; [exact E|].
    apply (grown_without h (l ++ addresses u) h' h2 G). intros a. split.
    + intros I. apply in_app_or in I. destruct (in_dec Z.eq_dec a (addresses u)) as [J|J]; [exact (proj1 (W2 a) J)|].
      rewrite (proj2 (W2 a) J). apply W. tauto.
    + intros N. rewrite (proj2 (W2 a)) by (intros I; apply N, in_or_app; now right).
      apply W. intros I. apply N, in_or_app. now left.
Qed.

(** arg_free gives everything back exactly if there is nothing behind the first NULL or the end. *)
Lemma free_all_iff h t h' t1 h1 : grown h (addresses t) h' -> arg_free h' t = Val (t1, h1) ->
  (same h h1 <-> exists l s, up_to_end h' t l s /\ addresses t = l).
Proof.
  intros G F. destruct (free_sound t h' 0 t1 h1 F) as [l [s [U [D [-> W]]]]].
  destruct (ute_split _ _ _ _ U) as [u [E _]]. split.
  - intros Sa. exists l, s. split; [exact U|]. rewrite E, addresses_app, addresses_some in *. 
    destruct (addresses u) as [|b v] eqn:X; [apply app_nil_r|]. exfalso.
    assert (Ib : In b (l ++ b :: v)) by (apply in_or_app; right; now left).
    destruct (proj1 (proj2 G b) Ib) as [Hb Hb']. specialize (Sa b). rewrite Hb in Sa.
    rewrite (proj2 (W b)) in Sa; [congruence|]. destruct G as [ND _]. apply NoDup_remove_2 in ND.
    intros I. apply ND, in_or_app. now left.
  - intros [l' [s' [U' E']]]. assert (l' = l) as ->.
    { clear - U U'. revert l' s' U'. induction U as [t | a t [f [E O]] | a t l s [f [E O]] U IH]; intros l' s' U';
        inversion U' as [t0|a0 t0 [f0 [E0 O0]]|a0 t0 l0 s0 [f0 [E0 O0]] U0]; subst; try reflexivity; try congruence.
      f_equal. exact (IH _ _ U0). }
    rewrite E' in G. exact (grown_without _ _ _ _ G W).
Qed.

(** A table as the documentation asks for (no NULL, the last object and only that one made by arg_end). *)
Lemma as_asked_end h flags t : as_asked h flags t ->
  forall pre f, flags = map Some pre ++ [Some f] -> Forall (fun f => Z.odd f = false) pre -> Z.odd f = true ->
  up_to_end h t (addresses t) AtEnd.
Proof.
  induction 1 as [|g c flags t A As IH]; intros pre f E O T; [destruct pre; discriminate|].
  destruct pre as [|x pre]; cbn [map app] in E; injection E as -> ->.
  - inversion As; subst. destruct A as [a [-> Ha]]. cbn [addresses]. constructor. exists f. now split.
  - inversion O as [|y z O1 O2]; subst. destruct A as [a [-> Ha]]. cbn [addresses]. constructor; [exists x; now split|].
    exact (IH pre f eq_refl O2 T).
Qed.

Lemma ute_whole h flags t : as_asked h flags t ->
  forall pre f, flags = map Some pre ++ [Some f] -> length t = length (addresses t).
Proof.
  induction 1 as [|g c flags t A As IH]; intros pre f E; [destruct pre; discriminate|].
  destruct pre as [|x pre]; cbn [map app] in E; injection E as -> ->.
  - inversion As; subst. destruct A as [a [-> Ha]]. reflexivity.
  - destruct A as [a [-> Ha]]. cbn [addresses length]. f_equal. exact (IH pre f eq_refl).
Qed.

Lemma documented p h pre f got t h' : sound_malloc h (map Some pre ++ [Some f]) got 0 ->
  Forall (fun f => Z.odd f = false) pre -> Z.odd f = true ->
  (forall k, (k < asked_for (map Some pre ++ [Some f]))%nat -> got k <> None) ->
  make_table p h (map Some pre ++ [Some f]) got 0 = Made (t, h') ->
  Z.of_nat (length t) <= INT_MAX ->
  arg_nullcheck h' (Some t) = Val 0 /\
  exists h'', arg_free h' t = Val (repeat None (length t), h'') /\ same h h''.
Proof.
  intros S O T K E L.
  destruct (make_all p _ h got 0 S) as [t0 [h0 [E0 [A G]]]]; [intros k Hk; apply K, Hk|].
  rewrite E0 in E. injection E as -> ->.
  pose proof (as_asked_end h' _ t A pre f eq_refl O T) as U.
  split; [apply (nullcheck_iff h' t 0 L); exists (addresses t), AtEnd; now split|].
  destruct (free_complete t h' _ _ 0 U (proj1 G) (Z.le_refl 0) L) as [h'' [F W]]. exists h''.
  assert (cut (addresses t) t = repeat None (length t)) as X.
  { unfold cut. rewrite <- (ute_whole h' _ t A pre f eq_refl), skipn_all, app_nil_r. reflexivity. }
  rewrite X in F. split; [exact F|]. apply (free_all_iff h t h' _ h'' G F). exists (addresses t), AtEnd. now split.
Qed.
