(** The scanner of integer values against Spec/IntText.v. *)
From Coq Require Import ZArith Bool List Ascii String Lia.
From Verif.Base Require Import CInt CStr.
From Verif.Model Require Import ArgInt.
From Verif.Spec Require Import IntText.
Import ListNotations.
Open Scope list_scope.
Open Scope Z_scope.

Ltac all_chars c := destruct c as [[] [] [] [] [] [] [] []].

(** ** Characters *)
Lemma isspace_blank c : isspace c = true <-> In c [" "; "009"; "010"; "011"; "012"; "013"]%char.
Proof.
  split.
  - all_chars c; vm_compute; intros H; try discriminate H; tauto.
  - cbn [In]. intros H. repeat (destruct H as [<-|H]; [reflexivity|]). destruct H.
Qed.

Lemma toupper_is c x :
  In x ["K"; "M"; "G"; "B"; "X"; "O"]%char ->
  aeqb (toupper c) x = true <-> c = x \/ c = ascii_of_N (N_of_ascii x + 32).
Proof.
  intros I. cbn [In] in I.
  repeat (destruct I as [<-|I];
    [split; [all_chars c; vm_compute; intros H; try discriminate H; tauto
            |intros [-> | ->]; reflexivity]|]).
  destruct I.
Qed.

Definition base_ok (b : Z) : Prop := b = 2 \/ b = 8 \/ b = 10 \/ b = 16.

Lemma digit_of_sound b c d : base_ok b -> digit_of b c = Some d -> digit b c d.
Proof.
  intros [ -> |[ -> |[ -> | -> ]]]; all_chars c; vm_compute; intros H; try discriminate H;
    injection H as <-; (split; [split; [discriminate|reflexivity]|]); first [left; reflexivity | right; reflexivity].
Qed.

Lemma digit_of_complete b c d : base_ok b -> digit b c d -> digit_of b c = Some d.
Proof.
  intros B [[D1 D2] D3].
  assert (d < 16) by (destruct B as [->|[->|[->| ->]]]; lia).
  assert (d = 0 \/ d = 1 \/ d = 2 \/ d = 3 \/ d = 4 \/ d = 5 \/ d = 6 \/ d = 7 \/
          d = 8 \/ d = 9 \/ d = 10 \/ d = 11 \/ d = 12 \/ d = 13 \/ d = 14 \/ d = 15) as E by lia.
  destruct B as [->|[->|[->| ->]]];
    repeat (destruct E as [->|E]); try subst d; try (exfalso; lia);
    destruct D3 as [D3|D3]; vm_compute in D3; injection D3 as <-; reflexivity.
Qed.

Lemma digit_of_none b c : base_ok b -> digit_of b c = None -> forall d, ~ digit b c d.
Proof. intros B N d D. apply (digit_of_complete b c d B) in D. congruence. Qed.

(** ** White space and signs *)
Definition head_not (P : ascii -> Prop) (s : str) : Prop := forall c, hd_error s = Some c -> ~ P c.

Lemma skip_space_split s :
  exists w, s = w ++ skip_space s /\ blank w /\ head_not (fun c => isspace c = true) (skip_space s).
Proof.
  induction s as [|c s IH]; cbn [skip_space].
  - exists []. split; [reflexivity|]. split; [constructor|]. intros c H; discriminate H.
  - destruct (isspace c) eqn:E.
    + destruct IH as (w & E1 & B & N). exists (c :: w). split; [cbn; f_equal; exact E1|].
      split; [constructor; [apply isspace_blank; exact E|exact B]|exact N].
    + exists []. split; [reflexivity|]. split; [constructor|].
      intros x H. injection H as <-. congruence.
Qed.

Lemma skip_space_app w r :
  blank w -> head_not (fun c => isspace c = true) r -> skip_space (w ++ r) = r.
Proof.
  intros B N. induction B as [|c w I B IH]; cbn [app].
  - destruct r as [|c r]; [reflexivity|]. cbn. specialize (N c eq_refl). cbn in N.
    destruct (isspace c); [exfalso; apply N; reflexivity|reflexivity].
  - cbn. apply isspace_blank in I. rewrite I. exact IH.
Qed.

Lemma skip_space_blank w : blank w <-> skip_space w = [].
Proof.
  split.
  - intros B. rewrite <- (app_nil_r w). apply skip_space_app; [exact B|intros c H; discriminate H].
  - intros E. destruct (skip_space_split w) as (w' & E' & B & _). rewrite E, app_nil_r in E'. subst. exact B.
Qed.

Lemma sign_of_split s z r : sign_of s = (z, r) -> exists sg, s = sg ++ r /\ sign sg z.
Proof.
  unfold sign_of. destruct s as [|c s].
  - intros H; injection H as <- <-. exists []. split; [reflexivity|constructor].
  - destruct (aeqb c "+"%char) eqn:E1; [|destruct (aeqb c "-"%char) eqn:E2]; intros H; injection H as <- <-.
    + apply aeqb_eq in E1. subst. exists ["+"%char]. split; [reflexivity|constructor].
    + apply aeqb_eq in E2. subst. exists ["-"%char]. split; [reflexivity|constructor].
    + exists []. split; [reflexivity|constructor].
Qed.

Lemma sign_of_app sg z r :
  sign sg z -> head_not (fun c => c = "+"%char \/ c = "-"%char) r -> sign_of (sg ++ r) = (z, r).
Proof.
  intros S N. destruct S; cbn [app]; [|reflexivity|reflexivity].
  destruct r as [|c r]; [reflexivity|]. unfold sign_of. specialize (N c eq_refl).
  destruct (aeqb c "+"%char) eqn:E1; [apply aeqb_eq in E1; tauto|].
  destruct (aeqb c "-"%char) eqn:E2; [apply aeqb_eq in E2; tauto|]. reflexivity.
Qed.

(** ** Digits *)
Definition no_digit (b : Z) (s : str) : Prop := head_not (fun c => exists d, digit b c d) s.

Lemma digits_val_app b ds d : digits_val b (ds ++ [d]) = digits_val b ds * b + d.
Proof. unfold digits_val. rewrite fold_left_app. reflexivity. Qed.

Lemma numeral_vals b t v :
  numeral b t v <-> exists ds, Forall2 (digit b) t ds /\ ds <> [] /\ v = digits_val b ds.
Proof.
  split.
  - induction 1 as [c d D|s v c d N (ds & F & Ne & ->) D].
    + exists [d]. split; [constructor; [exact D|constructor]|]. split; [discriminate|reflexivity].
    + exists (ds ++ [d]). split; [apply Forall2_app; [exact F|constructor; [exact D|constructor]]|].
      split; [destruct ds; discriminate|]. rewrite digits_val_app. reflexivity.
  - intros (ds & F & Ne & ->). revert t F Ne. induction ds as [|d ds IH] using rev_ind; intros t F Ne.
    { congruence. }
    apply Forall2_app_inv_r in F. destruct F as (t1 & t2 & F1 & F2 & ->).
    inversion F2 as [|c d' l l' D F3]; subst. inversion F3; subst.
    destruct ds as [|d0 ds].
    + inversion F1; subst. cbn [app]. change (digits_val b ([] ++ [d])) with (0 * b + d).
      replace (0 * b + d) with d by lia. constructor. exact D.
    + rewrite digits_val_app. apply numeral_more; [|exact D]. apply IH; [exact F1|discriminate].
Qed.

Lemma span_sound b s ds rest :
  base_ok b -> span_digits b s = (ds, rest) ->
  exists t, s = t ++ rest /\ Forall2 (digit b) t ds /\ no_digit b rest.
Proof.
  intros B. revert ds rest. induction s as [|c s IH]; intros ds rest H; cbn in H.
  - injection H as <- <-. exists []. split; [reflexivity|]. split; [constructor|]. intros c H; discriminate H.
  - destruct (digit_of b c) as [d|] eqn:E.
    + destruct (span_digits b s) as [ds' rest'] eqn:Es. injection H as <- <-.
      destruct (IH ds' rest' eq_refl) as (t & -> & F & N).
      exists (c :: t). split; [reflexivity|]. split; [|exact N].
      constructor; [apply digit_of_sound; assumption|exact F].
    + injection H as <- <-. exists []. split; [reflexivity|]. split; [constructor|].
      intros x X (d & D). injection X as <-. exact (digit_of_none b c B E d D).
Qed.

Lemma span_complete b t ds rest :
  base_ok b -> Forall2 (digit b) t ds -> no_digit b rest -> span_digits b (t ++ rest) = (ds, rest).
Proof.
  intros B F N. induction F as [|c d t ds D F IH]; cbn [app].
  - destruct rest as [|c rest]; [reflexivity|]. cbn.
    destruct (digit_of b c) as [d|] eqn:E; [|reflexivity].
    exfalso. apply (N c eq_refl). exists d. apply digit_of_sound; assumption.
  - cbn. rewrite (digit_of_complete b c d B D), IH. reflexivity.
Qed.

Lemma digit_no_space b c d : base_ok b -> digit b c d -> isspace c = false /\ c <> "+"%char /\ c <> "-"%char /\
  aeqb (toupper c) "X"%char = false.
Proof.
  intros B D. apply (digit_of_complete b c d B) in D. revert D.
  destruct B as [->|[->|[->| ->]]]; all_chars c; vm_compute; intros H; try discriminate H;
    repeat split; discriminate.
Qed.

Lemma digit_val_range b c d : digit b c d -> 0 <= d < b.
Proof. intros [H _]. exact H. Qed.

Lemma numeral_nonneg b t v : 0 < b -> numeral b t v -> 0 <= v.
Proof.
  intros B H. induction H as [c d D|s v c d N IH D]; apply digit_val_range in D; nia.
Qed.

(** ** strtol *)
Definition inner (b : Z) (t : str) (v : Z) : Prop :=
  exists w sg s p ds u, t = w ++ sg ++ p ++ ds /\ blank w /\ sign sg s /\
    (p = [] \/ (b = 16 /\ radix p 16)) /\ numeral b ds u /\ v = s * u.

Definition x_head (s : str) : Prop := exists x r, s = x :: r /\ aeqb (toupper x) "X"%char = true.

Lemma strtol_sound b s v rest :
  base_ok b -> strtol b s = Some (v, rest) ->
  (exists t u, s = t ++ rest /\ inner b t u /\ v = clamp_long u /\ no_digit b rest) \/
  (b = 16 /\ v = 0 /\ x_head rest).
Proof.
  intros B H. unfold strtol in H.
  destruct (skip_space_split s) as (w & Es & Bw & _).
  destruct (sign_of (skip_space s)) as [sg s2] eqn:E1.
  destruct (sign_of_split _ _ _ E1) as (sgt & Es2 & Sg).
  destruct (skip_0x b s2) as [skipped s3] eqn:E2.
  destruct (span_digits b s3) as [ds rest'] eqn:E3.
  destruct (span_sound b s3 ds rest' B E3) as (t & Et & F & N).
  assert (exists p, s2 = p ++ s3 /\ (p = [] \/ (b = 16 /\ radix p 16)) /\
            (skipped = true -> b = 16 /\ x_head (tl s2)) ) as (p & Ep & Pp & Sk).
  { unfold skip_0x in E2. destruct s2 as [|z [|x r]].
    - injection E2 as <- <-. exists []. split; [reflexivity|]. split; [left; reflexivity|discriminate].
    - injection E2 as <- <-. exists []. split; [reflexivity|]. split; [left; reflexivity|discriminate].
    - destruct ((b =? 16) && aeqb z "0"%char && aeqb (toupper x) "X"%char) eqn:C; injection E2 as <- <-.
      + apply andb_prop in C. destruct C as [C Cx]. apply andb_prop in C. destruct C as [Cb Cz].
        apply Z.eqb_eq in Cb. apply aeqb_eq in Cz. subst.
        exists ["0"%char; x]. split; [reflexivity|]. split.
        * right. split; [reflexivity|]. apply toupper_is in Cx; [|cbn; tauto].
          destruct Cx as [-> | ->]; [apply radix_X|apply radix_x].
        * intros _. split; [reflexivity|]. exists x; eexists. split; [reflexivity|exact Cx].
      + exists []. split; [reflexivity|]. split; [left; reflexivity|discriminate]. }
  destruct ds as [|d ds].
  - destruct skipped; [|discriminate H]. injection H as <- <-. right. destruct (Sk eq_refl). auto.
  - injection H as <- <-. left. exists (w ++ sgt ++ p ++ t), (sg * digits_val b (d :: ds)).
    split; [rewrite Es at 1; rewrite Es2, Ep, Et; rewrite <- !app_assoc; reflexivity|].
    split; [|split; [reflexivity|exact N]].
    exists w, sgt, sg, p, t, (digits_val b (d :: ds)).
    split; [reflexivity|]. split; [exact Bw|]. split; [exact Sg|]. split; [exact Pp|].
    split; [|reflexivity]. apply numeral_vals. exists (d :: ds). split; [exact F|]. split; [discriminate|reflexivity].
Qed.

Lemma numeral_head b t v : numeral b t v -> exists c d r, t = c :: r /\ digit b c d.
Proof.
  intros H. apply numeral_vals in H. destruct H as (ds & F & N & _).
  inversion F as [|c d t' ds' D F' E1 E2]; subst; [congruence|]. eauto.
Qed.

Lemma strtol_complete b t u rest :
  base_ok b -> inner b t u -> no_digit b rest -> (u = 0 -> ~ x_head rest) ->
  strtol b (t ++ rest) = Some (clamp_long u, rest).
Proof.
  intros B (w & sg & s & p & ds & x & -> & Bw & Sg & Pp & Nu & ->) N Xh.
  destruct (numeral_head _ _ _ Nu) as (c & d & r & Ec & D).
  destruct (digit_no_space b c d B D) as (C1 & C2 & C3 & C4).
  apply numeral_vals in Nu. destruct Nu as (vs & F & Ne & ->).
  unfold strtol. rewrite <- !app_assoc.
  assert (head_not (fun c => isspace c = true) (sg ++ p ++ ds ++ rest)) as H1.
  { intros y Y Z. destruct Sg; cbn in Y; try (injection Y as <-; discriminate Z).
    destruct Pp as [->|[_ R]].
    - rewrite Ec in Y. cbn in Y. injection Y as <-. congruence.
    - inversion R; subst; cbn in Y; injection Y as <-; discriminate Z. }
  rewrite (skip_space_app _ _ Bw H1).
  assert (head_not (fun c => c = "+"%char \/ c = "-"%char) (p ++ ds ++ rest)) as H2.
  { intros y Y Z. destruct Pp as [->|[_ R]].
    - rewrite Ec in Y. cbn in Y. injection Y as <-. tauto.
    - inversion R; subst; cbn in Y; injection Y as <-; destruct Z; discriminate. }
  rewrite (sign_of_app _ _ _ Sg H2).
  assert (exists k, skip_0x b (p ++ ds ++ rest) = (k, ds ++ rest)) as (k & ->).
  { destruct Pp as [->|[-> R]].
    - cbn [app]. exists false. unfold skip_0x. rewrite Ec. cbn [app].
      destruct (r ++ rest) as [|y z] eqn:Er; [reflexivity|].
      destruct ((b =? 16) && aeqb c "0"%char && aeqb (toupper y) "X"%char) eqn:C; [|reflexivity].
      exfalso. apply andb_prop in C. destruct C as [C0 Cx].
      destruct r as [|y' r'].
      + cbn in Er. rewrite Ec in F. inversion F as [|? d0 ? ? D0 F0]; subst. inversion F0; subst.
        apply andb_prop in C0. destruct C0 as [_ C0]. apply aeqb_eq in C0. subst c.
        apply digit_of_complete in D0; [|exact B].
        assert (d0 = 0) as -> by (revert D0; destruct B as [->|[->|[->| ->]]]; vm_compute; congruence).
        apply Xh; [unfold digits_val; cbn; lia|]. exists y, z. auto.
      + cbn in Er. injection Er as -> _. rewrite Ec in F. inversion F as [|? ? ? ? D0 F0]; subst.
        inversion F0 as [|? ? ? ? D1 F1]; subst.
        destruct (digit_no_space b y _ B D1) as (_ & _ & _ & Q). congruence.
    - exists true. inversion R; subst; reflexivity. }
  rewrite (span_complete b ds vs rest B F N).
  destruct vs; [congruence|]. reflexivity.
Qed.

(** ** strtol0X *)
Definition prefixed (p : str) (b : Z) (t : str) (z v : Z) : Prop :=
  exists w sg t', t = w ++ sg ++ p ++ t' /\ blank w /\ sign sg z /\ inner b t' v.

Lemma radix_base p b : radix p b -> base_ok b.
Proof. unfold base_ok. destruct 1; auto. Qed.

(** The three calls of strtol0X. *)
Definition radix_char (X : ascii) (b : Z) : Prop :=
  (X = "X"%char /\ b = 16) \/ (X = "O"%char /\ b = 8) \/ (X = "B"%char /\ b = 2).

Lemma radix_of X b x : radix_char X b -> aeqb (toupper x) (toupper X) = true -> radix ["0"%char; x] b.
Proof.
  intros R H.
  destruct R as [[-> ->]|[[-> ->]|[-> ->]]]; apply toupper_is in H; try (cbn; tauto);
    destruct H as [-> | ->]; constructor.
Qed.

Lemma radix_inv X b p : radix_char X b -> radix p b -> exists x, p = ["0"%char; x] /\ aeqb (toupper x) (toupper X) = true.
Proof.
  intros R P. destruct R as [[-> ->]|[[-> ->]|[-> ->]]]; inversion P; subst; eexists; split; reflexivity.
Qed.

Lemma radix_char_base X b : radix_char X b -> base_ok b.
Proof. unfold radix_char, base_ok. intuition. Qed.

Lemma strtol0X_sound s X b r :
  radix_char X b -> strtol0X s X b = r ->
  match r with
  | Val None => True
  | Val (Some (v, rest)) =>
      (exists p t z u, s = t ++ rest /\ radix p b /\ prefixed p b t z u /\ v = z * clamp_long u /\ no_digit b rest) \/
      (v = 0 /\ x_head rest)
  | UB => exists p t u rest, s = t ++ rest /\ radix p b /\ prefixed p b t (-1) u /\ no_digit b rest /\
            u <= LONG_MIN
  end.
Proof.
  intros R H. pose proof (radix_char_base X b R) as B. unfold strtol0X in H.
  destruct (skip_space_split s) as (w & Es & Bw & _).
  destruct (sign_of (skip_space s)) as [z s2] eqn:E1.
  destruct (sign_of_split _ _ _ E1) as (sgt & Es2 & Sg).
  destruct s2 as [|c0 [|x t0]]; try (subst r; exact I).
  destruct (aeqb c0 "0"%char && aeqb (toupper x) (toupper X)) eqn:C; [|subst r; exact I].
  apply andb_prop in C. destruct C as [C0 Cx]. apply aeqb_eq in C0. subst c0.
  destruct (strtol b t0) as [[v rest]|] eqn:St; [|subst r; exact I].
  destruct (strtol_sound b t0 v rest B St) as [(t & u & Et & In_ & -> & N)|(-> & -> & Xh)].
  - assert (s = (w ++ sgt ++ ["0"%char; x] ++ t) ++ rest) as Es'.
    { rewrite Es at 1. rewrite Es2, Et. rewrite <- !app_assoc. reflexivity. }
    assert (radix ["0"%char; x] b) as Rx by (eapply radix_of; eassumption).
    assert (prefixed ["0"%char; x] b (w ++ sgt ++ ["0"%char; x] ++ t) z u) as Px
      by (exists w, sgt, t; auto).
    unfold long_op in H. destruct (in_long (z * clamp_long u)) eqn:L; cbn [cbind] in H; subst r.
    + left. exists ["0"%char; x], (w ++ sgt ++ ["0"%char; x] ++ t), z, u. auto.
    + assert (z = -1 /\ u <= LONG_MIN) as [-> Lu].
      { assert (~ (LONG_MIN <= z * clamp_long u <= LONG_MAX)) as L' by (rewrite <- in_long_iff; congruence).
        clear - L' Sg. revert L'. unfold clamp_long, LONG_MIN, LONG_MAX in *.
        destruct (u <? -9223372036854775808) eqn:A, (9223372036854775807 <? u) eqn:A'; inversion Sg; subst;
          intros; lia. }
      exists ["0"%char; x], (w ++ sgt ++ ["0"%char; x] ++ t), u, rest. auto.
  - unfold long_op in H. rewrite Z.mul_0_r in H. cbn in H. subst r. right. auto.
Qed.

Lemma strtol0X_complete p b X t z u rest :
  radix_char X b -> radix p b -> prefixed p b t z u -> no_digit b rest -> (u = 0 -> ~ x_head rest) ->
  strtol0X (t ++ rest) X b =
    cbind (long_op (z * clamp_long u)) (fun v => Val (Some (v, rest))).
Proof.
  intros R P (w & sg & t' & -> & Bw & Sg & In_) N Xh.
  destruct (radix_inv X b p R P) as (x & -> & Cx).
  unfold strtol0X. rewrite <- !app_assoc.
  rewrite (skip_space_app w); [|exact Bw|].
  2:{ intros y Y Z. destruct Sg; cbn in Y; injection Y as <-; discriminate Z. }
  rewrite (sign_of_app sg z); [|exact Sg|].
  2:{ intros y Y [->| ->]; cbn in Y; discriminate Y. }
  cbn [app]. rewrite Cx. cbn [aeqb].
  replace (aeqb "0"%char "0"%char) with true by reflexivity. cbn [andb].
  rewrite (strtol_complete b t' u rest (radix_base _ _ P) In_ N Xh). reflexivity.
Qed.

(** Another prefix than the one looked for. *)
Lemma strtol0X_other w sg z r X b :
  blank w -> sign sg z -> head_not (fun c => isspace c = true \/ c = "+"%char \/ c = "-"%char) r ->
  (forall x r', r = "0"%char :: x :: r' -> aeqb (toupper x) (toupper X) = false) ->
  strtol0X (w ++ sg ++ r) X b = Val None.
Proof.
  intros Bw Sg H N. unfold strtol0X.
  rewrite (skip_space_app w); [|exact Bw|].
  2:{ intros y Y Z. destruct Sg; cbn in Y; try (injection Y as <-; discriminate Z). apply (H y Y). tauto. }
  rewrite (sign_of_app sg z); [|exact Sg|].
  2:{ intros y Y Z. apply (H y Y). tauto. }
  destruct r as [|c [|x r']]; try reflexivity.
  destruct (aeqb c "0"%char) eqn:E; [|reflexivity]. apply aeqb_eq in E. subst.
  rewrite (N x r' eq_refl). reflexivity.
Qed.
