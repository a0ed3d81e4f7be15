(** What the parts of a format take. *)
From Coq Require Import ZArith NArith Bool List Ascii String Lia.
From Verif.Base Require Import CInt CStr CMem Tm.
From Verif.Model Require Import ArgInt ArgDate.
From Verif.Spec Require Import DateSpec.
From Verif.Proofs Require Import DateRead DateSteps DateMain.
Import ListNotations.
Open Scope list_scope.
Open Scope Z_scope.

(** ** Letters *)
Definition all_chars : list ascii := map (fun n => ascii_of_nat n) (seq 0 256).
Lemma all_in c : In c all_chars.
Proof. unfold all_chars. rewrite <- (ascii_nat_embedding c). apply in_map. apply in_seq. assert (H := nat_ascii_bounded c). lia. Qed.
Lemma lower_upper c d : aeqb (tolower c) (tolower d) = aeqb (toupper c) (toupper d).
Proof.
  assert (H : forallb (fun c => forallb (fun d => Bool.eqb (aeqb (tolower c) (tolower d)) (aeqb (toupper c) (toupper d))) all_chars) all_chars = true) by (vm_compute; reflexivity).
  rewrite forallb_forall in H. specialize (H c (all_in c)). cbv beta in H. rewrite forallb_forall in H. specialize (H d (all_in d)). apply eqb_prop in H. exact H.
Qed.
Lemma same_cons c a d b : same_letters (c :: a) (d :: b) <-> toupper c = toupper d /\ same_letters a b.
Proof. unfold same_letters. cbn [map]. split; [intros E; injection E; auto|intros [-> ->]; reflexivity]. Qed.
Lemma same_length a b : same_letters a b -> List.length a = List.length b.
Proof. intros H. assert (Q := f_equal (@List.length ascii) H). rewrite !map_length in Q. exact Q. Qed.
Lemma caseeq_spec a b : strcaseeq a b = true <-> same_letters b a.
Proof.
  revert b. induction a as [|c a IH]; intros [|d b]; cbn [strcaseeq]; try (split; intros H; discriminate H); [split; reflexivity|].
  rewrite andb_true_iff, IH, lower_upper, aeqb_eq, same_cons. intuition congruence.
Qed.
Definition begins (n bp : str) : Prop := exists x y, bp = x ++ y /\ same_letters x n.
Lemma ncaseeq_spec n bp : no_nul n -> strncaseeq n bp (List.length n) = true <-> begins n bp.
Proof.
  revert bp. induction n as [|c n IH]; intros bp H.
  - cbn. split; [|reflexivity]. intros _. exists [], bp. split; reflexivity.
  - cbn [List.length strncaseeq cur tl]. assert (Hc : aeqb c NUL = false) by (apply aeqb_neq; intros ->; apply H; left; reflexivity).
    rewrite Hc, lower_upper. destruct bp as [|d bp]; cbn [cur tl].
    + split.
      * destruct (aeqb (toupper c) (toupper NUL)) eqn:E; [|discriminate]. intros _. exfalso. rewrite <- lower_upper in E. apply aeqb_eq in E.
        assert (tolower c = NUL -> c = NUL) as Q; [|rewrite (Q E) in Hc; discriminate Hc]. destruct c as [[] [] [] [] [] [] [] []]; vm_compute; intros X; congruence.
      * intros (x & y & E & S1). apply same_length in S1. destruct x; [discriminate S1|discriminate E].
    + destruct (aeqb (toupper c) (toupper d)) eqn:E.
      * apply aeqb_eq in E. rewrite IH by (intros I0; apply H; right; exact I0). split.
        -- intros (x & y & -> & S1). exists (d :: x), y. split; [reflexivity|]. apply same_cons. auto.
        -- intros ([|d' x] & y & E' & S1); [apply same_length in S1; discriminate S1|]. injection E' as <- ->. apply same_cons in S1 as [_ S1]. exists x, y. auto.
      * split; [discriminate|]. intros ([|d' x] & y & E' & S1); [apply same_length in S1; discriminate S1|]. injection E' as <- ->. apply same_cons in S1 as [S1 _].
        rewrite S1, aeqb_refl in E. discriminate E.
Qed.

(** ** Names *)
Definition key (n : str) : str := map toupper (firstn 3 n).
Lemma begins_app a b bp : begins (a ++ b) bp -> begins a bp.
Proof.
  intros (x & y & -> & S1). unfold same_letters in S1. exists (firstn (List.length a) x), (skipn (List.length a) x ++ y).
  split; [rewrite app_assoc, firstn_skipn; reflexivity|]. unfold same_letters. rewrite <- firstn_map, S1, map_app, firstn_app, map_length, Nat.sub_diag.
  rewrite firstn_all2 by (rewrite map_length; lia). cbn. apply app_nil_r.
Qed.
Lemma begins_key n m bp : begins (firstn 3 n) bp -> begins (firstn 3 m) bp -> (3 <= List.length n)%nat -> (3 <= List.length m)%nat -> key n = key m.
Proof.
  intros (x & y & -> & S1) (x' & y' & E & S2) L1 L2. unfold key. rewrite <- S1, <- S2.
  assert (A := same_length _ _ S1). assert (B := same_length _ _ S2). rewrite firstn_length in A, B.
  assert (x = x') as ->; [|reflexivity]. apply (f_equal (firstn 3)) in E. rewrite !firstn_app in E.
  replace (3 - List.length x)%nat with 0%nat in E by lia. replace (3 - List.length x')%nat with 0%nat in E by lia. rewrite !firstn_O in E.
  rewrite !app_nil_r in E. rewrite !firstn_all2 in E by lia. exact E.
Qed.
Lemma find_name_spec full : (forall n, In n full -> no_nul n /\ (3 <= List.length n)%nat) -> NoDup (map key full) -> forall i0 bp i w rest, bp = w ++ rest ->
  find_name full (map (firstn 3) full) i0 bp = Some (i, List.length w) <->
  exists n, nth_error full (Z.to_nat (i - i0)) = Some n /\ i0 <= i /\ (same_letters w n \/ same_letters w (firstn 3 n) /\ ~ begins n bp).
Proof.
  intros Hn Hd i0 bp i w rest Eb. revert i0 Hn Hd. induction full as [|f full IH]; intros i0 Hn Hd.
  - cbn. split; [discriminate|]. intros (n & H & _). destruct (Z.to_nat (i - i0)); discriminate.
  - cbn [map find_name]. destruct (Hn f (or_introl eq_refl)) as [Hf Lf].
    assert (Ha : no_nul (firstn 3 f)) by (intros I0; apply Hf; rewrite <- (firstn_skipn 3 f); apply in_or_app; auto).
    assert (Hb : begins f bp -> begins (firstn 3 f) bp) by (intros B; apply (begins_app _ (skipn 3 f)); rewrite firstn_skipn; exact B).
    assert (W : forall n, same_letters w n -> begins n bp) by (intros n B; exists w, rest; auto).
    assert (Others : begins (firstn 3 f) bp -> forall n j, nth_error full j = Some n -> same_letters w n \/ same_letters w (firstn 3 n) -> False).
    { intros B n j Hj C. assert (In n full) by (eapply nth_error_In; exact Hj). destruct (Hn n (or_intror H)) as [_ Ln].
      assert (B' : begins (firstn 3 n) bp). { destruct C as [C|C]; [|apply W; exact C]. apply (begins_app _ (skipn 3 n)). rewrite firstn_skipn. apply W. exact C. }
      cbn [map] in Hd. inversion Hd as [|? ? Hni _]; subst. apply Hni. rewrite (begins_key f n _ B B' Lf Ln). apply in_map. exact H. }
    assert (Lw : forall n, begins n bp -> List.length w = List.length n -> same_letters w n).
    { intros n (x & y & E & S1) L. assert (Q := same_length _ _ S1). rewrite Eb in E.
      assert (w = x) as ->; [|exact S1]. apply (f_equal (firstn (List.length w))) in E. rewrite firstn_app, Nat.sub_diag, firstn_all, firstn_app in E.
      replace (List.length w - List.length x)%nat with 0%nat in E by lia. cbn [firstn] in E. rewrite !app_nil_r in E. rewrite firstn_all2 in E by lia. exact E. }
    destruct (strncaseeq f bp (List.length f)) eqn:E1.
    + apply ncaseeq_spec in E1; [|exact Hf]. split.
      * intros X. injection X as <- Lx. exists f. rewrite Z.sub_diag. split; [reflexivity|]. split; [lia|]. left. apply Lw; [exact E1|auto].
      * intros (n & Hj & Hi & C). destruct (Z.to_nat (i - i0)) as [|j] eqn:J.
        -- injection Hj as <-. replace i with i0 by lia. f_equal. f_equal. destruct C as [C|(_ & C)]; [symmetry; exact (same_length _ _ C)|contradiction].
        -- exfalso. apply (Others (Hb E1) n j Hj). tauto.
    + assert (N1 : ~ begins f bp) by (intros B; apply ncaseeq_spec in B; [congruence|exact Hf]).
      destruct (strncaseeq (firstn 3 f) bp (List.length (firstn 3 f))) eqn:E2.
      * apply ncaseeq_spec in E2; [|exact Ha]. split.
        -- intros X. assert (Lx : i0 = i /\ List.length (firstn 3 f) = List.length w) by (injection X; auto). destruct Lx as [<- Lx].
           exists f. rewrite Z.sub_diag. split; [reflexivity|]. split; [lia|]. right. split; [apply Lw; [exact E2|auto]|exact N1].
        -- intros (n & Hj & Hi & C). destruct (Z.to_nat (i - i0)) as [|j] eqn:J.
           ++ injection Hj as <-. replace i with i0 by lia. f_equal. f_equal. destruct C as [C|(C & _)]; [exfalso; apply N1, W, C|symmetry; exact (same_length _ _ C)].
           ++ exfalso. apply (Others E2 n j Hj). tauto.
      * assert (N2 : ~ begins (firstn 3 f) bp) by (intros B; apply ncaseeq_spec in B; [congruence|exact Ha]).
        cbn [map] in Hd. inversion Hd as [|? ? _ Hd']; subst. rewrite IH; [|intros n I0; apply Hn; right; exact I0|exact Hd']. split.
        -- intros (n & Hj & Hi & C). exists n. replace (i - i0) with (1 + (i - (i0 + 1))) by lia. rewrite Z2Nat.inj_add by lia. split; [exact Hj|]. split; [lia|exact C].
        -- intros (n & Hj & Hi & C). destruct (Z.to_nat (i - i0)) as [|j] eqn:J.
           ++ exfalso. injection Hj as <-. destruct C as [C|(C & _)]; [exact (N1 (W _ C))|exact (N2 (W _ C))].
           ++ exists n. replace (Z.to_nat (i - (i0 + 1))) with j by lia. split; [exact Hj|]. split; [lia|exact C].
Qed.
Lemma find_len full ab i0 bp i len : find_name full ab i0 bp = Some (i, len) -> exists w rest, bp = w ++ rest /\ List.length w = len \/ (List.length bp < len)%nat.
Proof. intros _. exists (firstn len bp), (skipn len bp). rewrite firstn_skipn, firstn_length. destruct (Nat.le_gt_cases len (List.length bp)); [left; split; [reflexivity|lia]|right; assumption]. Qed.
Lemma find_fits full : (forall n, In n full -> no_nul n) -> forall i0 bp i len, find_name full (map (firstn 3) full) i0 bp = Some (i, len) -> (len <= List.length bp)%nat.
Proof.
  intros Hn i0 bp i len. revert i0 Hn. induction full as [|f full IH]; intros i0 Hn E; [discriminate|]. cbn [map find_name] in E.
  assert (Hf := Hn f (or_introl eq_refl)). assert (Ha : no_nul (firstn 3 f)) by (intros I0; apply Hf; rewrite <- (firstn_skipn 3 f); apply in_or_app; auto).
  assert (B : forall n, begins n bp -> (List.length n <= List.length bp)%nat) by (intros n (x & y & -> & S1); rewrite app_length, (same_length _ _ S1); lia).
  destruct (strncaseeq f bp _) eqn:E1; [injection E as _ <-; apply B; apply ncaseeq_spec; assumption|].
  destruct (strncaseeq (firstn 3 f) bp _) eqn:E2; [apply ncaseeq_spec in E2; [|exact Ha]; injection E as _ <-; apply B; exact E2|].
  apply (IH _ (fun n I0 => Hn n (or_intror I0)) E).
Qed.
Lemma by_name_spec full k bp rest t' : (forall n, In n full -> no_nul n /\ (3 <= List.length n)%nat) -> NoDup (map key full) ->
  by_name full (map (firstn 3) full) k bp = Some (rest, t') <-> exists w, bp = w ++ rest /\ exists i, named full w rest i /\ t' = k i.
Proof.
  intros Hn Hd. unfold by_name. split.
  - destruct (find_name _ _ 0 bp) as [[i len]|] eqn:E; [|discriminate]. intros X. injection X as <- <-.
    assert (L := find_fits full (fun n I0 => proj1 (Hn n I0)) _ _ _ _ E).
    assert (Lw : List.length (firstn len bp) = len) by (rewrite firstn_length; lia).
    exists (firstn len bp). split; [symmetry; apply firstn_skipn|]. exists i. split; [|reflexivity].
    rewrite <- Lw in E at 1. destruct (proj1 (find_name_spec full Hn Hd 0 bp i (firstn len bp) (skipn len bp) (eq_sym (firstn_skipn len bp))) E) as (n & Hj & Hi & C).
    rewrite Z.sub_0_r in Hj. exists n. split; [exact Hj|]. split; [exact Hi|]. destruct C as [C|(C & N)]; [left; exact C|right; split; [exact C|]].
    intros (x & y & E' & S1). apply N. exists x, y. rewrite <- E', firstn_skipn. auto.
  - intros (w & E & i & (n & Hj & Hi & C) & ->). assert (Q : find_name full (map (firstn 3) full) 0 bp = Some (i, List.length w)).
    { apply (find_name_spec full Hn Hd 0 bp i w rest E). exists n. rewrite Z.sub_0_r. split; [exact Hj|]. split; [exact Hi|].
      destruct C as [C|(C & N)]; [left; exact C|right; split; [exact C|]]. intros (x & y & E' & S1). apply N. exists x, y. rewrite <- E. auto. }
    rewrite Q, E. f_equal. f_equal. clear. induction w as [|c w IH]; [reflexivity|exact IH].
Qed.
Definition no_dup_b (l : list str) : bool := (fix go l := match l with [] => true | x :: l => negb (existsb (fun y => if list_eq_dec ascii_dec x y then true else false) l) && go l end) l.
Lemma no_dup l : no_dup_b l = true -> NoDup l.
Proof.
  induction l as [|x l IH]; intros H; [constructor|]. cbn in H. apply andb_true_iff in H as [H1 H2]. apply negb_true_iff in H1. constructor; [|apply IH; exact H2].
  intros I0. assert (Q : existsb (fun y => if list_eq_dec ascii_dec x y then true else false) l = true); [|congruence].
  apply existsb_exists. exists x. split; [exact I0|]. destruct (list_eq_dec ascii_dec x x); [reflexivity|contradiction].
Qed.
Lemma names_fine full : forallb (fun n => forallb (fun c => negb (aeqb c NUL)) n && Nat.leb 3 (List.length n)) full = true ->
  forall n, In n full -> no_nul n /\ (3 <= List.length n)%nat.
Proof.
  intros H n I0. rewrite forallb_forall in H. apply H in I0. apply andb_true_iff in I0 as [I1 I2]. split; [|apply Nat.leb_le; exact I2].
  intros I3. rewrite forallb_forall in I1. apply I1 in I3. rewrite aeqb_refl in I3. discriminate.
Qed.
Lemma month_spec k bp rest t' : by_name mon abmon k bp = Some (rest, t') <-> exists w, bp = w ++ rest /\ exists i, named month_names w rest i /\ t' = k i.
Proof. change abmon with (map (firstn 3) month_names). change mon with month_names. apply by_name_spec; [apply names_fine; reflexivity|apply no_dup; reflexivity]. Qed.
Lemma day_spec k bp rest t' : by_name day abday k bp = Some (rest, t') <-> exists w, bp = w ++ rest /\ exists i, named day_names w rest i /\ t' = k i.
Proof. change abday with (map (firstn 3) day_names). change day with day_names. apply by_name_spec; [apply names_fine; reflexivity|apply no_dup; reflexivity]. Qed.

(** ** Parts *)
Lemma skip_spec bp rest : skip_space bp = rest <-> exists w, bp = w ++ rest /\ Forall (fun c => isspace c = true) w /\ ~ starts (fun c => isspace c = true) rest.
Proof.
  revert rest. induction bp as [|c bp IH]; intros rest; cbn [skip_space].
  - split; [intros <-; exists []; repeat split; [constructor|intros []]|]. intros (w & E & _). destruct w; [exact E|discriminate].
  - destruct (isspace c) eqn:S1.
    + rewrite IH. split.
      * intros (w & -> & F & N). exists (c :: w). repeat split; [constructor; assumption|exact N].
      * intros ([|d w] & E & F & N); [exfalso; apply N; cbn in E; rewrite <- E; exact S1|]. injection E as <- ->. inversion F; subst. exists w. auto.
    + split; [intros <-; exists []; repeat split; [constructor|cbn; congruence]|]. intros ([|d w] & E & F & N); [exact E|].
      injection E as <- ->. inversion F; subst. congruence.
Qed.
Lemma by_num_spec lo hi k bp rest t' : 0 < hi <= 9999 -> by_num lo hi k bp = Some (rest, t') <-> exists w, bp = w ++ rest /\ exists v, number lo hi w rest v /\ t' = k v.
Proof.
  intros H. unfold by_num. split.
  - destruct (num lo hi bp) as [[v r]|] eqn:E; [|discriminate]. intros X. injection X as <- <-. apply num_spec in E; [|exact H].
    destruct E as (ds & E & N). exists ds. split; [exact E|]. exists v. auto.
  - intros (w & E & v & N & ->). assert (Q : num lo hi bp = Some (v, rest)) by (apply num_spec; [exact H|]; exists w; auto). rewrite Q. reflexivity.
Qed.
Lemma exists_iff {A} (P Q : A -> Prop) : (forall a, P a <-> Q a) -> (exists a, P a) <-> exists a, Q a.
Proof. intros H. split; intros (a & Ha); exists a; apply H; exact Ha. Qed.
Lemma part_spec p bp t rest t' : read_part p bp t = Some (rest, t') <-> exists w, bp = w ++ rest /\ takes p w rest t t'.
Proof.
  destruct p; cbn [read_part takes]; try (apply by_num_spec; lia).
  - split.
    + intros E. injection E as E <-. apply skip_spec in E. destruct E as (w & E & F & N). exists w. auto.
    + intros (w & E & F & N & ->). f_equal. f_equal. apply skip_spec. eauto.
  - split.
    + destruct bp as [|d bp]; [discriminate|]. destruct (aeqb c d) eqn:D; [|discriminate]. apply aeqb_eq in D as ->. intros E. injection E as <- <-. exists [d]. auto.
    + intros (w & -> & -> & ->). cbn [app]. rewrite aeqb_refl. reflexivity.
  - rewrite by_num_spec by lia. apply exists_iff. intros w. split; intros (E & v & N & ->); (split; [exact E|]); exists v; (split; [exact N|]); f_equal;
      destruct (Z.leb_spec v 68), (Z.ltb_spec v 69); lia.
  - split; [discriminate|]. intros (w & _ & []).
  - rewrite by_num_spec by lia. apply exists_iff. intros w. split; intros (E & v & N & ->); (split; [exact E|]); exists v; (split; [exact N|]); f_equal;
      destruct N as (_ & _ & _ & R & _); destruct (Z.eqb_spec v 12) as [-> |]; try reflexivity; [symmetry|]; apply Z.mod_small; lia.
  - apply month_spec.
  - apply day_spec.
  - destruct (Z.ltb_spec 11 (tm_hour t)).
    + split; [discriminate|]. intros (w & _ & _ & L & _). lia.
    + destruct (strcaseeq am bp) eqn:E1.
      * apply caseeq_spec in E1. assert (L := same_length _ _ E1). split.
        -- rewrite (skipn_all2 bp) by (rewrite L; reflexivity). intros X. injection X as <- <-. exists bp. rewrite app_nil_r. repeat split; [lia|]. left. auto.
        -- intros (w & -> & -> & _ & C). rewrite app_nil_r in *. assert (K : skipn 2 w = []) by (apply skipn_all2; rewrite L; reflexivity). rewrite K. destruct C as [(_ & ->)|(C & _)]; [reflexivity|].
           exfalso. unfold same_letters in *. rewrite C in E1. discriminate E1.
      * destruct (strcaseeq pm_ bp) eqn:E2.
        -- apply caseeq_spec in E2. assert (L := same_length _ _ E2). split.
           ++ rewrite (skipn_all2 bp) by (rewrite L; reflexivity). intros X. injection X as <- <-. exists bp. rewrite app_nil_r. repeat split; [lia|]. right. auto.
           ++ intros (w & -> & -> & _ & C). rewrite app_nil_r in *. assert (K : skipn 2 w = []) by (apply skipn_all2; rewrite L; reflexivity). rewrite K. destruct C as [(C & _)|(_ & ->)]; [|reflexivity].
              apply caseeq_spec in C. unfold am in E1. congruence.
        -- split; [discriminate|]. intros (w & -> & -> & _ & C). rewrite app_nil_r in *. exfalso. destruct C as [(C & _)|(C & _)]; apply caseeq_spec in C; unfold am, pm_ in *; congruence.
Qed.
Lemma parts_spec ps bp t rest t' : read_parts ps bp t = Some (rest, t') <-> reads ps bp t rest t'.
Proof.
  revert bp t. induction ps as [|p ps IH]; intros bp t; cbn [read_parts].
  - split; [intros E; injection E as <- <-; constructor|]. intros H. inversion H; subst. reflexivity.
  - split.
    + destruct (read_part p bp t) as [[b1 t1]|] eqn:E; [|discriminate]. cbn [obind]. intros H. apply part_spec in E. destruct E as (w & -> & T).
      apply IH in H. econstructor; eassumption.
    + intros H. inversion H as [|p' ps' w text t0 t1 r0 t0' T R]; subst. assert (E : read_part p (w ++ text) t = Some (text, t1)) by (apply part_spec; eauto).
      rewrite E. cbn [obind]. apply IH. exact R.
Qed.
