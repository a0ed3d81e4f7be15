(** A pattern is written for one expression only. *)
From Coq Require Import ZArith NArith Bool List Ascii String Lia.
From Verif.Base Require Import CStr.
From Verif.Spec Require Import RegexSpec.
Import ListNotations.
Open Scope list_scope.

Definition inb (c : ascii) (s : str) : bool := existsb (aeqb c) s.
Lemma inb_in c s : inb c s = true <-> In c s.
Proof. unfold inb. rewrite existsb_exists. split; [intros (d & H & E); apply aeqb_eq in E; subst; exact H|]. intros H. exists c. split; [exact H|apply aeqb_refl]. Qed.
Lemma inb_not c s : ~ In c s <-> inb c s = false.
Proof. rewrite <- inb_in. destruct (inb c s); intuition congruence. Qed.
(** The letter behind a backslash. *)
Definition esc_tag (c : ascii) : nat :=
  if inb c (lit "ntrfv") then 0 else if inb c kind_letters then 1 else if aeqb c "b" then 2 else if aeqb c "B" then 3 else 4.
Lemma tag_control c d : control_letter c d -> esc_tag c = 0.
Proof. unfold control_letter. cbn. intros H. repeat (destruct H as [H|H]; [injection H as <- _; reflexivity|]). destruct H. Qed.
Lemma tag_kind k : In k kind_letters -> esc_tag k = 1.
Proof. cbn. intros H. repeat (destruct H as [<-|H]; [reflexivity|]). destruct H. Qed.
Lemma tag_escaped c : ~ In c (lit "ntrfvbB" ++ kind_letters) -> esc_tag c = 4.
Proof.
  intros H. unfold esc_tag. change (lit "ntrfvbB" ++ kind_letters) with (lit "ntrfv" ++ lit "bB" ++ kind_letters) in H.
  rewrite (proj1 (inb_not c (lit "ntrfv"))) by (intros X; apply H; apply in_or_app; auto).
  rewrite (proj1 (inb_not c kind_letters)) by (intros X; apply H; apply in_or_app; right; apply in_or_app; auto).
  destruct (aeqb c "b") eqn:E; [apply aeqb_eq in E; subst; exfalso; apply H; cbn; tauto|].
  destruct (aeqb c "B") eqn:E1; [apply aeqb_eq in E1; subst; exfalso; apply H; cbn; tauto|]. reflexivity.
Qed.
Lemma control_unique c d e : control_letter c d -> control_letter c e -> d = e.
Proof.
  unfold control_letter. cbn. intros H1 H2.
  assert (code d = code e). { intuition congruence. }
  unfold code in *. rewrite <- (ascii_N_embedding d), <- (ascii_N_embedding e), H. reflexivity.
Qed.

(** *** Counts *)
Lemma digits_unique ds es r1 r2 : Forall (fun d => digit d = true) ds -> Forall (fun d => digit d = true) es ->
  (forall c s, r1 = c :: s -> digit c = false) -> (forall c s, r2 = c :: s -> digit c = false) -> ds ++ r1 = es ++ r2 -> ds = es /\ r1 = r2.
Proof.
  intros H. revert es. induction H as [|d ds Hd Hds IH]; intros es He N1 N2 E.
  - destruct es as [|e es]; [auto|]. cbn in E. inversion He; subst. specialize (N1 _ _ eq_refl). congruence.
  - destruct es as [|e es].
    + cbn in E. subst r2. specialize (N2 _ _ eq_refl). congruence.
    + inversion He; subst. cbn in E. injection E as -> E. destruct (IH es) as [-> ->]; auto.
Qed.
Lemma nondigit c s c0 s0 : digit c = false -> c :: s = c0 :: s0 -> digit c0 = false.
Proof. congruence. Qed.
Lemma count_head c n m : count c n m -> exists d s, c = d :: s /\ In d (lit "*+?{").
Proof. destruct 1; cbn; eauto 10. Qed.
Lemma count_unique c n m c' n' m' r1 r2 : count c n m -> count c' n' m' -> c ++ r1 = c' ++ r2 -> c = c' /\ n = n' /\ m = m' /\ r1 = r2.
Proof.
  destruct 1 as [| | |ds [Nd Hd]|ds [Nd Hd]|ds es [Nd Hd] [Ne He]]; destruct 1 as [| | |ds' [Nd' Hd']|ds' [Nd' Hd']|ds' es' [Nd' Hd'] [Ne' He']];
    intros E; try discriminate E; try (injection E as <-; auto; fail); cbn in E; injection E as E; rewrite <- ?app_assoc in E; cbn in E.
  all: apply digits_unique in E; [|assumption|assumption|intros c0 s0 X; injection X as <- _; reflexivity|intros c0 s0 X; injection X as <- _; reflexivity];
       destruct E as [<- E]; try discriminate E.
  - injection E as <-. auto.
  - injection E as <-. auto.
  - cbn in E. injection E as E. destruct es' as [|e es']; [contradiction|]. inversion He'; subst. cbn in E. injection E as <- E. discriminate.
  - cbn in E. injection E as E. destruct es as [|e es]; [contradiction|]. inversion He; subst. cbn in E. injection E as -> E. discriminate.
  - cbn in E. injection E as E. rewrite <- !app_assoc in E. apply digits_unique in E; [|assumption|assumption|intros c0 s0 X; injection X as <- _; reflexivity|intros c0 s0 X; injection X as <- _; reflexivity].
    destruct E as [<- E]. injection E as <-. auto.
Qed.

(** *** Sets *)
Lemma tag_member c : ~ In c (lit "ntrfv" ++ kind_letters) -> 2 <= esc_tag c.
Proof.
  intros H. unfold esc_tag.
  rewrite (proj1 (inb_not c (lit "ntrfv"))) by (intros X; apply H; apply in_or_app; auto).
  rewrite (proj1 (inb_not c kind_letters)) by (intros X; apply H; apply in_or_app; auto).
  destruct (aeqb c "b"); [lia|]. destruct (aeqb c "B"); lia.
Qed.
Lemma member_unique m s it m' s' it' r1 r2 : member m s it -> member m' s' it' -> s ++ r1 = s' ++ r2 -> s = s' /\ it = it' /\ r1 = r2.
Proof.
  destruct 1 as [c P D M|c d C|k K|c N D]; destruct 1 as [c' P' D' M'|c' d' C'|k' K'|c' N' D']; cbn; intros E; injection E as E1 E2;
    try (subst; exfalso; match goal with H : ~ In "\"%char _ |- _ => apply H; cbn; tauto end); try (injection E2 as E2 E3); subst; try solve [auto].
  all: repeat match goal with H : control_letter ?c _ |- _ => pose proof (tag_control _ _ H); revert H end; intros;
       repeat match goal with H : In ?c kind_letters |- _ => pose proof (tag_kind _ H); revert H end; intros;
       repeat match goal with H : ~ In ?c (lit "ntrfv" ++ kind_letters) |- _ => pose proof (tag_member _ H); revert H end; intros; try lia.
  rewrite (control_unique _ _ _ C C'). auto.
Qed.
Lemma limit_unique s b s' b' r1 r2 : limit s b -> limit s' b' -> s ++ r1 = s' ++ r2 -> s = s' /\ b = b' /\ r1 = r2.
Proof.
  destruct 1 as [c P D|c d C|c N D]; destruct 1 as [c' P' D'|c' d' C'|c' N' D']; cbn; intros E; injection E as E1 E2;
    try (subst; exfalso; congruence); try (injection E2 as E2 E3); subst; try solve [auto].
  - rewrite (control_unique _ _ _ C C'). auto.
  - exfalso. apply D'. unfold control_letter in C. cbn in C |- *. intuition congruence.
  - exfalso. apply D. unfold control_letter in C'. cbn in C' |- *. intuition congruence.
Qed.
Lemma member_head m s it : member m s it -> exists c t, s = c :: t /\ c <> "]"%char /\ (m = false -> c <> "-"%char).
Proof.
  destruct 1 as [c P D M|c d C|k K|c N D]; eexists; eexists; (split; [reflexivity|]).
  - split; [intros ->; apply D; cbn; tauto|exact M].
  - split; [discriminate|discriminate].
  - split; [discriminate|discriminate].
  - split; [discriminate|discriminate].
Qed.
Lemma members_head m s its : members m s its -> s = [] \/ exists c t, s = c :: t /\ c <> "]"%char /\ (m = false -> c <> "-"%char).
Proof.
  destruct 1 as [m|m s it rest its Hm Hr|m s a t b rest its Hm Hl Hr]; [left; reflexivity| |]; right;
    destruct (member_head _ _ _ Hm) as (c & u & -> & H1 & H2); eexists; eexists; (split; [reflexivity|]); auto.
Qed.
Lemma members_unique m s its : members m s its -> forall s' its' r1 r2, members m s' its' -> s ++ "]"%char :: r1 = s' ++ "]"%char :: r2 ->
  s = s' /\ its = its' /\ r1 = r2.
Proof.
  induction 1 as [m|m s it rest its Hm Hr IH|m s a t b rest its Hm Hl Hr IH]; intros s' its' r1 r2 H E.
  - inversion H as [m0|m0 s0 it0 rest0 its0 Hm0 Hr0|m0 s0 a0 t0 b0 rest0 its0 Hm0 Hl0 Hr0]; subst.
    + cbn in E. injection E as <-. auto.
    + exfalso. destruct (member_head _ _ _ Hm0) as (c & u & -> & H1 & H2). cbn in E. injection E as <- _. contradiction.
    + exfalso. destruct (member_head _ _ _ Hm0) as (c & u & -> & H1 & H2). cbn in E. injection E as <- _. contradiction.
  - inversion H as [m0|m0 s0 it0 rest0 its0 Hm0 Hr0|m0 s0 a0 t0 b0 rest0 its0 Hm0 Hl0 Hr0]; subst.
    + exfalso. destruct (member_head _ _ _ Hm) as (c & u & -> & H1 & H2). cbn in E. injection E as -> _. contradiction.
    + rewrite <- !app_assoc in E. destruct (member_unique _ _ _ _ _ _ _ _ Hm Hm0 E) as (<- & <- & E1).
      destruct (IH _ _ _ _ Hr0 E1) as (<- & <- & <-). auto.
    + exfalso. rewrite <- !app_assoc in E. destruct (member_unique _ _ _ _ _ _ _ _ Hm Hm0 E) as (_ & _ & E1).
      destruct (members_head _ _ _ Hr) as [->|(c & u & -> & H1 & H2)]; cbn in E1; injection E1 as E1 _; [discriminate|]. exact (H2 eq_refl E1).
  - inversion H as [m0|m0 s0 it0 rest0 its0 Hm0 Hr0|m0 s0 a0 t0 b0 rest0 its0 Hm0 Hl0 Hr0]; subst.
    + exfalso. destruct (member_head _ _ _ Hm) as (c & u & -> & H1 & H2). cbn in E. injection E as -> _. contradiction.
    + exfalso. rewrite <- !app_assoc in E. destruct (member_unique _ _ _ _ _ _ _ _ Hm Hm0 E) as (_ & _ & E1).
      destruct (members_head _ _ _ Hr0) as [->|(c & u & -> & H1 & H2)]; cbn in E1; injection E1 as E1 _; [discriminate|]. exact (H2 eq_refl (eq_sym E1)).
    + rewrite <- !app_assoc in E. destruct (member_unique _ _ _ _ _ _ _ _ Hm Hm0 E) as (<- & E0 & E1). injection E0 as <-.
      cbn [lit list_ascii_of_string app] in E1. injection E1 as E1.
      destruct (limit_unique _ _ _ _ _ _ Hl Hl0 E1) as (<- & <- & E2). destruct (IH _ _ _ _ Hr0 E2) as (<- & <- & <-). auto.
Qed.

(** *** Expressions *)
(** The kind of thing that begins here. *)
Definition shape (u : str) : nat :=
  match u with
  | [] => 0
  | c :: u =>
      if aeqb c "\" then match u with d :: _ => 20 + esc_tag d | [] => 1 end
      else if aeqb c "(" then match u with d :: _ => if aeqb d "?" then 2 else 3 | [] => 3 end
      else if aeqb c "[" then match u with d :: _ => if aeqb d "^" then 4 else 5 | [] => 5 end
      else if aeqb c "$" then 6 else if aeqb c "." then 7 else 8
  end.
Lemma written_head lv av u r : written lv av u r -> exists c t, u = c :: t /\
  (In c specials \/ ~ In c av \/ lv = List_ /\ c = "^"%char).
Proof.
  induction 1; try (eexists; eexists; split; [reflexivity|]; cbn; solve [tauto|auto]);
    try (destruct IHwritten as (c0 & t0 & -> & D); eexists; eexists; split; [reflexivity|]; destruct D as [D|[D|[D1 D2]]]; solve [auto|discriminate]).
  - eexists. eexists. split; [reflexivity|]. right. left. intros X. apply H0. apply in_or_app. right. exact X.
  - destruct IHwritten1 as (c0 & t0 & -> & D); eexists; eexists; split; [reflexivity|]; destruct D as [D|[D|[D1 D2]]]; solve [auto|discriminate].
  - destruct IHwritten1 as (c0 & t0 & -> & D); eexists; eexists; split; [reflexivity|]; destruct D as [D|[D|[D1 D2]]]; solve [auto|discriminate].
  - destruct IHwritten1 as (c0 & t0 & -> & D); eexists; eexists; split; [reflexivity|]; destruct D as [D|[D|[D1 D2]]]; solve [auto|discriminate].
Qed.

Lemma head_not lv av u r c t : written lv av u r -> In c av -> ~ In c specials -> (lv = List_ -> c <> "^"%char) -> u <> c :: t.
Proof.
  intros H I1 I2 I3 ->. destruct (written_head _ _ _ _ H) as (d & s & E & D). injection E as <- <-.
  destruct D as [D|[D|[D1 D2]]]; [contradiction|contradiction|exact (I3 D1 D2)].
Qed.
(** The shape of an atom is that of the rule that gives it. *)
Lemma shape_plain c t : ~ In c specials -> shape (c :: t) = 8.
Proof.
  intros H. unfold shape. repeat match goal with |- context [aeqb c ?d] => destruct (aeqb c d) eqn:?E end;
    try reflexivity; exfalso; apply H; match goal with E : aeqb c _ = true |- _ => apply aeqb_eq in E; subst; cbn; tauto end.
Qed.
Lemma shape_set s r : hd_error s <> Some "^"%char -> shape ("["%char :: s ++ "]"%char :: r) = 5.
Proof.
  intros H. destruct s as [|c s]; [reflexivity|]. cbn. destruct (aeqb c "^") eqn:E; [|reflexivity]. apply aeqb_eq in E. subst. contradiction.
Qed.
Lemma shape_group s q r : written List_ (lit "^?") s q -> shape ("("%char :: s ++ r) = 3.
Proof.
  intros H. destruct (written_head _ _ _ _ H) as (c & t & -> & D). cbn. destruct (aeqb c "?") eqn:E; [|reflexivity]. apply aeqb_eq in E. subst.
  exfalso. eapply (head_not _ _ _ _ "?"%char t H); [cbn; tauto|cbn; intuition discriminate|discriminate|reflexivity].
Qed.

Definition ends (lv : level) (r : str) : Prop :=
  match lv with
  | Atom => True
  | Chain => r = [] \/ exists c t, r = c :: t /\ In c (lit "|)")
  | List_ => r = [] \/ exists t, r = ")"%char :: t
  end.
Definition anchors (lv : level) (av : str) : Prop := lv = List_ -> In "^"%char av.
Definition unique_at (lv : level) (av u : str) (r : rx) : Prop := anchors lv av ->
  forall u' r' e e', written lv av u' r' -> ends lv e -> ends lv e' -> u ++ e = u' ++ e' -> u = u' /\ r = r' /\ e = e'.
Ltac shapes E := apply (f_equal shape) in E; revert E; rewrite <- ?app_assoc.
(** What follows an atom: the end, a count, or another atom. *)
Definition follows (r : str) : nat :=
  match r with [] => 0 | c :: _ => if inb c (lit "|)") then 0 else if inb c (lit "*+?{") then 1 else 2 end.
Lemma follows_end r : ends Chain r -> follows r = 0.
Proof. intros [->|(c & t & -> & H)]; [reflexivity|]. cbn [follows]. apply inb_in in H. rewrite H. reflexivity. Qed.
Lemma follows_count c n m r : count c n m -> follows (c ++ r) = 1.
Proof. intros H. destruct (count_head _ _ _ H) as (d & s & -> & D). cbn in D. repeat (destruct D as [<-|D]; [reflexivity|]). destruct D. Qed.
Lemma follows_more t q r : written Chain (behind false) t q -> follows (t ++ r) = 2.
Proof.
  intros H. destruct (written_head _ _ _ _ H) as (c & s & -> & D). cbn [app follows].
  assert (X : In c (lit "|)" ++ lit "*+?{") -> False).
  { intros X. destruct D as [D|[D|[D _]]]; [|apply D; cbn in X |- *; tauto|discriminate]. cbn in X, D. intuition (subst; discriminate). }
  rewrite (proj1 (inb_not c _)) by (intros Y; apply X; apply in_or_app; auto).
  rewrite (proj1 (inb_not c _)) by (intros Y; apply X; apply in_or_app; auto). reflexivity.
Qed.
(** Behind a count. *)
Definition follows2 (r : str) : bool := match r with [] => false | c :: _ => negb (inb c (lit "|)")) end.
Lemma follows2_end r : ends Chain r -> follows2 r = false.
Proof. intros [->|(c & t & -> & H)]; [reflexivity|]. cbn [follows2]. apply inb_in in H. rewrite H. reflexivity. Qed.
Lemma follows2_more t q r : written Chain (behind true) t q -> follows2 (t ++ r) = true.
Proof.
  intros H. destruct (written_head _ _ _ _ H) as (c & s & -> & D). cbn [app follows2].
  rewrite (proj1 (inb_not c _)); [reflexivity|]. intros X. destruct D as [D|[D|[D _]]]; [|apply D; cbn in X |- *; tauto|discriminate].
  cbn in X, D. intuition (subst; discriminate).
Qed.
Lemma no_caret av s q t : written Chain av s q -> In "^"%char av -> s <> "^"%char :: t.
Proof. intros H I. apply (head_not _ _ _ _ _ _ H I); [cbn; intuition discriminate|discriminate]. Qed.
Lemma ends_or t : ends Chain (lit "|" ++ t).
Proof. right. exists "|"%char, t. split; [reflexivity|]. cbn. tauto. Qed.
Lemma ends_list r : ends List_ r -> ends Chain r /\ forall t, r <> "|"%char :: t.
Proof. intros [->|(t & ->)]; [split; [left; reflexivity|discriminate]|]. split; [|discriminate]. right. exists ")"%char, t. split; [reflexivity|]. cbn. tauto. Qed.
Inductive acase : nat -> str -> rx -> Prop :=
  | ac_plain c : acase 8 [c] (Char c)
  | ac_control c d : control_letter c d -> acase 20 ["\"%char; c] (Char d)
  | ac_kind k : acase 21 ["\"%char; k] (Kind k)
  | ac_word : acase 22 (lit "\b") (Word true)
  | ac_no_word : acase 23 (lit "\B") (Word false)
  | ac_escaped c : acase 24 ["\"%char; c] (Char c)
  | ac_any : acase 7 (lit ".") Any
  | ac_stop : acase 6 (lit "$") Stop
  | ac_set s its : members true s its -> acase 5 (lit "[" ++ s ++ lit "]") (Set_ false its)
  | ac_set_out s its : members true s its -> acase 4 (lit "[^" ++ s ++ lit "]") (Set_ true its)
  | ac_group s r : written List_ (lit "^?") s r -> acase 3 (lit "(" ++ s ++ lit ")") r
  | ac_group_plain s r : written List_ (lit "^") s r -> acase 2 (lit "(?:" ++ s ++ lit ")") r.
Lemma acase_of av u r : written Atom av u r -> forall e, acase (shape (u ++ e)) u r.
Proof.
  intros H e. inversion H as [av0 c P D|av0 c d C|av0 k K|av0|av0|av0 c N D|av0|av0|av0 s its N Hd M|av0 s its N M|av0 s q W|av0 s q W| | | | | | | |]; subst.
  - cbn [app]. rewrite shape_plain by (intros X; apply D; apply in_or_app; auto). constructor.
  - cbn [app shape]. change (aeqb "\" "\") with true. cbv iota. rewrite (tag_control _ _ C). constructor. exact C.
  - cbn [app shape]. change (aeqb "\" "\") with true. cbv iota. rewrite (tag_kind _ K). constructor.
  - constructor.
  - constructor.
  - cbn [app shape]. change (aeqb "\" "\") with true. cbv iota. rewrite (tag_escaped _ D). constructor.
  - constructor.
  - constructor.
  - replace (shape ((lit "[" ++ s ++ lit "]") ++ e)) with 5; [constructor; exact M|]. symmetry. rewrite <- !app_assoc. exact (shape_set s e Hd).
  - constructor. exact M.
  - replace (shape ((lit "(" ++ s ++ lit ")") ++ e)) with 3; [constructor; exact W|]. symmetry. rewrite <- !app_assoc. exact (shape_group s r (lit ")" ++ e) W).
  - constructor. exact W.
Qed.

Lemma acase_at av u r k e s : written Atom av u r -> u ++ e = s -> shape s = k -> acase k u r.
Proof. intros H E1 E2. rewrite <- E2, <- E1. exact (acase_of _ _ _ H e). Qed.
Lemma written_unique lv av u r : written lv av u r -> unique_at lv av u r.
Proof.
  induction 1 as [av c P D|av c d C|av k K|av|av|av c N D|av|av|av s its N Hd M|av s its N M|av s q W IH|av s q W IH
    |av s r W IH|av s r c min max W IH Cn|av s r t q W IH W2 IH2|av s r c min max t q W IH Cn W2 IH2
    |av s r W IH|av s r W IH|av s r t q W IH W2 IH2|av s r t q W IH W2 IH2]; intros An u' r' e e' W' Ee Ee' E.
  (* atoms *)
  - pose proof (acase_at _ _ _ 8 _ _ W' (eq_sym E)) as A. specialize (A (shape_plain c e (fun X => D (in_or_app _ _ _ (or_introl X))))).
    inversion A; subst. cbn in E. injection E as <- <-. auto.
  - pose proof (acase_at _ _ _ 20 _ _ W' (eq_sym E)) as A.
    assert (Sh : shape (["\"%char; c] ++ e) = 20) by (cbn [app shape]; change (aeqb "\" "\") with true; cbv iota; rewrite (tag_control _ _ C); reflexivity).
    specialize (A Sh). inversion A as [|c' d' C'| | | | | | | | | |]; subst. cbn in E. injection E as <- <-. rewrite (control_unique _ _ _ C C'). auto.
  - pose proof (acase_at _ _ _ 21 _ _ W' (eq_sym E)) as A.
    assert (Sh : shape (["\"%char; k] ++ e) = 21) by (cbn [app shape]; change (aeqb "\" "\") with true; cbv iota; rewrite (tag_kind _ K); reflexivity).
    specialize (A Sh). inversion A; subst. cbn in E. injection E as <- <-. auto.
  - pose proof (acase_at _ _ _ 22 _ _ W' (eq_sym E) eq_refl) as A. inversion A; subst. cbn in E. injection E as <-. auto.
  - pose proof (acase_at _ _ _ 23 _ _ W' (eq_sym E) eq_refl) as A. inversion A; subst. cbn in E. injection E as <-. auto.
  - pose proof (acase_at _ _ _ 24 _ _ W' (eq_sym E)) as A.
    assert (Sh : shape (["\"%char; c] ++ e) = 24) by (cbn [app shape]; change (aeqb "\" "\") with true; cbv iota; rewrite (tag_escaped _ D); reflexivity).
    specialize (A Sh). inversion A; subst. cbn in E. injection E as <- <-. auto.
  - pose proof (acase_at _ _ _ 7 _ _ W' (eq_sym E) eq_refl) as A. inversion A; subst. cbn in E. injection E as <-. auto.
  - pose proof (acase_at _ _ _ 6 _ _ W' (eq_sym E) eq_refl) as A. inversion A; subst. cbn in E. injection E as <-. auto.
  - pose proof (acase_at _ _ _ 5 _ _ W' (eq_sym E)) as A.
    assert (Sh : shape ((lit "[" ++ s ++ lit "]") ++ e) = 5) by (rewrite <- !app_assoc; exact (shape_set s e Hd)).
    specialize (A Sh). inversion A as [| | | | | | | |s' its' M'| | |]; subst. rewrite <- !app_assoc in E. cbn in E. injection E as E.
    destruct (members_unique _ _ _ M _ _ _ _ M' E) as (<- & <- & <-). auto.
  - pose proof (acase_at _ _ _ 4 _ _ W' (eq_sym E) eq_refl) as A.
    inversion A as [| | | | | | | | |s' its' M'| |]; subst. rewrite <- !app_assoc in E. cbn in E. injection E as E.
    destruct (members_unique _ _ _ M _ _ _ _ M' E) as (<- & <- & <-). auto.
  - pose proof (acase_at _ _ _ 3 _ _ W' (eq_sym E)) as A.
    assert (Sh : shape ((lit "(" ++ s ++ lit ")") ++ e) = 3) by (rewrite <- !app_assoc; exact (shape_group s q (lit ")" ++ e) W)).
    specialize (A Sh). inversion A as [| | | | | | | | | |s' q' Wq|]; subst. rewrite <- !app_assoc in E. cbn [lit list_ascii_of_string app] in E. injection E as E.
    destruct (IH (fun _ => or_introl eq_refl) s' r' _ _ Wq (or_intror (ex_intro _ e eq_refl)) (or_intror (ex_intro _ e' eq_refl)) E) as (<- & <- & E1).
    injection E1 as <-. auto.
  - pose proof (acase_at _ _ _ 2 _ _ W' (eq_sym E) eq_refl) as A.
    inversion A as [| | | | | | | | | | |s' q' Wq]; subst. rewrite <- !app_assoc in E. cbn [lit list_ascii_of_string app] in E. injection E as E.
    destruct (IH (fun _ => or_introl eq_refl) s' r' _ _ Wq (or_intror (ex_intro _ e eq_refl)) (or_intror (ex_intro _ e' eq_refl)) E) as (<- & <- & E1).
    injection E1 as <-. auto.
  (* chains *)
  - assert (An0 : anchors Atom av) by discriminate.
    inversion W' as [| | | | | | | | | | | |av0 s0 r0 V|av0 s0 r0 c0 min0 max0 V Cn0|av0 s0 r0 t0 q0 V V2|av0 s0 r0 c0 min0 max0 t0 q0 V Cn0 V2| | | |]; subst; rewrite <- ?app_assoc in E;
      destruct (IH An0 _ _ _ _ V Logic.I Logic.I E) as (<- & <- & E1).
    + auto.
    + exfalso. apply (f_equal follows) in E1. rewrite (follows_end _ Ee), (follows_count _ _ _ _ Cn0) in E1. discriminate.
    + exfalso. apply (f_equal follows) in E1. rewrite (follows_end _ Ee), (follows_more _ _ _ V2) in E1. discriminate.
    + exfalso. apply (f_equal follows) in E1. rewrite (follows_end _ Ee), (follows_count _ _ _ _ Cn0) in E1. discriminate.
  - assert (An0 : anchors Atom av) by discriminate. rewrite <- app_assoc in E.
    inversion W' as [| | | | | | | | | | | |av0 s0 r0 V|av0 s0 r0 c0 min0 max0 V Cn0|av0 s0 r0 t0 q0 V V2|av0 s0 r0 c0 min0 max0 t0 q0 V Cn0 V2| | | |]; subst; rewrite <- ?app_assoc in E;
      destruct (IH An0 _ _ _ _ V Logic.I Logic.I E) as (<- & <- & E1).
    + exfalso. apply (f_equal follows) in E1. rewrite (follows_end _ Ee'), (follows_count _ _ _ _ Cn) in E1. discriminate.
    + destruct (count_unique _ _ _ _ _ _ _ _ Cn Cn0 E1) as (<- & <- & <- & <-). auto.
    + exfalso. apply (f_equal follows) in E1. rewrite (follows_count _ _ _ _ Cn), (follows_more _ _ _ V2) in E1. discriminate.
    + exfalso. destruct (count_unique _ _ _ _ _ _ _ _ Cn Cn0 E1) as (_ & _ & _ & E2). apply (f_equal follows2) in E2.
      rewrite (follows2_end _ Ee), (follows2_more _ _ _ V2) in E2. discriminate.
  - assert (An0 : anchors Atom av) by discriminate. assert (An1 : anchors Chain (behind false)) by discriminate. rewrite <- app_assoc in E.
    inversion W' as [| | | | | | | | | | | |av0 s0 r0 V|av0 s0 r0 c0 min0 max0 V Cn0|av0 s0 r0 t0 q0 V V2|av0 s0 r0 c0 min0 max0 t0 q0 V Cn0 V2| | | |]; subst; rewrite <- ?app_assoc in E;
      destruct (IH An0 _ _ _ _ V Logic.I Logic.I E) as (<- & <- & E1).
    + exfalso. apply (f_equal follows) in E1. rewrite (follows_end _ Ee'), (follows_more _ _ _ W2) in E1. discriminate.
    + exfalso. apply (f_equal follows) in E1. rewrite (follows_count _ _ _ _ Cn0), (follows_more _ _ _ W2) in E1. discriminate.
    + destruct (IH2 An1 _ _ _ _ V2 Ee Ee' E1) as (<- & <- & <-). auto.
    + exfalso. apply (f_equal follows) in E1. rewrite (follows_count _ _ _ _ Cn0), (follows_more _ _ _ W2) in E1. discriminate.
  - assert (An0 : anchors Atom av) by discriminate. assert (An1 : anchors Chain (behind true)) by discriminate. rewrite <- !app_assoc in E.
    inversion W' as [| | | | | | | | | | | |av0 s0 r0 V|av0 s0 r0 c0 min0 max0 V Cn0|av0 s0 r0 t0 q0 V V2|av0 s0 r0 c0 min0 max0 t0 q0 V Cn0 V2| | | |]; subst; rewrite <- ?app_assoc in E;
      destruct (IH An0 _ _ _ _ V Logic.I Logic.I E) as (<- & <- & E1).
    + exfalso. apply (f_equal follows) in E1. rewrite (follows_end _ Ee'), (follows_count _ _ _ _ Cn) in E1. discriminate.
    + exfalso. destruct (count_unique _ _ _ _ _ _ _ _ Cn Cn0 E1) as (_ & _ & _ & E2). apply (f_equal follows2) in E2.
      rewrite (follows2_end _ Ee'), (follows2_more _ _ _ W2) in E2. discriminate.
    + exfalso. apply (f_equal follows) in E1. rewrite (follows_count _ _ _ _ Cn), (follows_more _ _ _ V2) in E1. discriminate.
    + destruct (count_unique _ _ _ _ _ _ _ _ Cn Cn0 E1) as (<- & <- & <- & E2).
      destruct (IH2 An1 _ _ _ _ V2 Ee Ee' E2) as (<- & <- & <-). auto.
  (* lists *)
  - assert (An0 : anchors Chain av) by discriminate. specialize (An eq_refl). destruct (ends_list _ Ee) as [F1 F2]. destruct (ends_list _ Ee') as [F3 F4].
    inversion W' as [| | | | | | | | | | | | | | | |av0 s0 r0 V|av0 s0 r0 V|av0 s0 r0 t0 q0 V V2|av0 s0 r0 t0 q0 V V2]; subst; rewrite <- ?app_assoc in E.
    + exact (IH An0 _ _ _ _ V F1 F3 E).
    + exfalso. destruct (written_head _ _ _ _ W) as (c & t & -> & _). cbn in E. injection E as -> E. exact (no_caret _ _ _ _ W An eq_refl).
    + exfalso. destruct (IH An0 _ _ _ _ V F1 (ends_or _) E) as (_ & _ & E1). exact (F2 _ E1).
    + exfalso. destruct (written_head _ _ _ _ W) as (c & t & -> & _). cbn in E. injection E as -> E. exact (no_caret _ _ _ _ W An eq_refl).
  - assert (An0 : anchors Chain []) by discriminate. specialize (An eq_refl). destruct (ends_list _ Ee) as [F1 F2]. destruct (ends_list _ Ee') as [F3 F4].
    rewrite <- app_assoc in E.
    inversion W' as [| | | | | | | | | | | | | | | |av0 s0 r0 V|av0 s0 r0 V|av0 s0 r0 t0 q0 V V2|av0 s0 r0 t0 q0 V V2]; subst; rewrite <- ?app_assoc in E.
    + exfalso. destruct (written_head _ _ _ _ V) as (c & t & -> & _). cbn in E. injection E as <- E. exact (no_caret _ _ _ _ V An eq_refl).
    + cbn [lit list_ascii_of_string app] in E. injection E as E. destruct (IH An0 _ _ _ _ V F1 F3 E) as (<- & <- & <-). auto.
    + exfalso. destruct (written_head _ _ _ _ V) as (c & t & -> & _). cbn in E. injection E as <- E. exact (no_caret _ _ _ _ V An eq_refl).
    + exfalso. cbn [lit list_ascii_of_string app] in E. injection E as E. destruct (IH An0 _ _ _ _ V F1 (ends_or _) E) as (_ & _ & E1). exact (F2 _ E1).
  - assert (An0 : anchors Chain av) by discriminate. assert (An1 : anchors List_ (lit "^")) by (intros _; left; reflexivity).
    specialize (An eq_refl). destruct (ends_list _ Ee) as [F1 F2]. destruct (ends_list _ Ee') as [F3 F4]. rewrite <- !app_assoc in E.
    inversion W' as [| | | | | | | | | | | | | | | |av0 s0 r0 V|av0 s0 r0 V|av0 s0 r0 t0 q0 V V2|av0 s0 r0 t0 q0 V V2]; subst; rewrite <- ?app_assoc in E.
    + exfalso. destruct (IH An0 _ _ _ _ V (ends_or _) F3 E) as (_ & _ & E1). exact (F4 _ (eq_sym E1)).
    + exfalso. destruct (written_head _ _ _ _ W) as (c & t' & -> & _). cbn in E. injection E as -> E. exact (no_caret _ _ _ _ W An eq_refl).
    + destruct (IH An0 _ _ _ _ V (ends_or _) (ends_or _) E) as (<- & <- & E1). cbn [lit list_ascii_of_string app] in E1. injection E1 as E1.
      destruct (IH2 An1 _ _ _ _ V2 Ee Ee' E1) as (<- & <- & <-). auto.
    + exfalso. destruct (written_head _ _ _ _ W) as (c & t' & -> & _). cbn in E. injection E as -> E. exact (no_caret _ _ _ _ W An eq_refl).
  - assert (An0 : anchors Chain []) by discriminate. assert (An1 : anchors List_ (lit "^")) by (intros _; left; reflexivity).
    specialize (An eq_refl). destruct (ends_list _ Ee) as [F1 F2]. destruct (ends_list _ Ee') as [F3 F4]. rewrite <- !app_assoc in E.
    inversion W' as [| | | | | | | | | | | | | | | |av0 s0 r0 V|av0 s0 r0 V|av0 s0 r0 t0 q0 V V2|av0 s0 r0 t0 q0 V V2]; subst; rewrite <- ?app_assoc in E.
    + exfalso. destruct (written_head _ _ _ _ V) as (c & t' & -> & _). cbn in E. injection E as <- E. exact (no_caret _ _ _ _ V An eq_refl).
    + exfalso. cbn [lit list_ascii_of_string app] in E. injection E as E. destruct (IH An0 _ _ _ _ V (ends_or _) F3 E) as (_ & _ & E1). exact (F4 _ (eq_sym E1)).
    + exfalso. destruct (written_head _ _ _ _ V) as (c & t' & -> & _). cbn in E. injection E as <- E. exact (no_caret _ _ _ _ V An eq_refl).
    + cbn [lit list_ascii_of_string app] in E. injection E as E. destruct (IH An0 _ _ _ _ V (ends_or _) (ends_or _) E) as (<- & <- & E1).
      cbn [lit list_ascii_of_string app] in E1. injection E1 as E1.
      destruct (IH2 An1 _ _ _ _ V2 Ee Ee' E1) as (<- & <- & <-). auto.
Qed.
Lemma writes_unique s r r' : writes s r -> writes s r' -> r = r'.
Proof.
  intros H1 H2. destruct (written_unique _ _ _ _ H1 (fun _ => or_introl eq_refl) s r' [] [] H2 (or_introl eq_refl) (or_introl eq_refl) eq_refl) as (_ & E & _).
  exact E.
Qed.
