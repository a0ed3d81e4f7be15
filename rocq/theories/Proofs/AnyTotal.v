(** Every command line has one meaning, or gets stuck. *)
From Coq Require Import ZArith Bool List Ascii String Arith Lia.
From Verif.Base Require Import CInt CStr.
From Verif.Model Require Import Permute Getopt.
From Verif.Spec Require Import CmdLine AnyLine AnySpec.
From Verif.Proofs Require Import GetoptLong GetoptProofs ParseSim AnyLong AnyGetopt.
Import ListNotations.
Open Scope list_scope.
Open Scope nat_scope.

Section Total.
Variable os : list opt.
Hypothesis FO : fine_options os.

Lemma any_letter_fine c k : letter_means os c k -> fine_letter c.
Proof.
  intros ((o & E & Ic) & _). pose proof FO as F. unfold fine_options in F. rewrite Forall_forall in F.
  apply nth_error_In in E. destruct (F o E) as (Fl & _). rewrite Forall_forall in Fl. auto.
Qed.
Lemma any_letter_dash k : ~ letter_means os "-"%char k.
Proof. intros H. apply any_letter_fine in H. unfold fine_letter in H. apply H. cbn. tauto. Qed.

Lemma letter_dec c : (exists k t, letter_means os c k /\ option_takes os k t) \/ (forall k, ~ letter_means os c k).
Proof.
  destruct (letter_case os c FO) as [(k & t & _ & Lm & Ht & _)|(N & _)]; [left|right]; eauto.
Qed.

Lemma any_long_exists w s ws : exists e ws', long_option os w s ws e ws' /\ len ws' <= len ws.
Proof.
  destruct (any_parse_long os [] w s ws) as (e & ws' & r & k & _ & LO & _ & K).
  exists e, ws'. split; [exact LO|]. destruct K as [(_ & -> & _)|(_ & v & -> & _)]; cbn; lia.
Qed.

Lemma inside_exists w p ws :
  (exists es ws', inside os w p ws es ws' /\ len ws' <= len ws) \/ ends_in_dash os p.
Proof.
  induction p as [|c p IH]; [left; exists [], ws; split; [constructor|lia]|].
  destruct (ascii_dec c "-"%char) as [->|Nc].
  - destruct p as [|x p]; [right; constructor|]. left.
    destruct (any_long_exists w (x :: p) ws) as (e & ws' & LO & L). exists [e], ws'. split; [|exact L].
    apply inside_long; [discriminate|exact LO].
  - destruct (letter_dec c) as [(k & t & Lm & Ht)|N].
    + destruct t.
      * destruct IH as [(es & ws' & H & L)|H].
        -- left. exists (Short k None :: es), ws'. split; [apply inside_flag; assumption|exact L].
        -- right. apply (dash_flag os c p k); assumption.
      * left. destruct p as [|x p].
        -- destruct ws as [|v ws].
           ++ exists [NoValue w], []. split; [apply (inside_missing os w c k); assumption|lia].
           ++ exists [Short k (Some v)], ws. split; [apply inside_next; assumption|cbn; lia].
        -- exists [Short k (Some (x :: p))], ws. split; [|lia].
           apply (inside_value os w c (x :: p) ws k Value); auto; discriminate.
      * left. destruct p as [|x p].
        -- exists [Short k None], ws. split; [apply inside_omitted; assumption|lia].
        -- exists [Short k (Some (x :: p))], ws. split; [|lia].
           apply (inside_value os w c (x :: p) ws k MaybeValue); auto; discriminate.
    + destruct IH as [(es & ws' & H & L)|H].
      * left. exists (NoLetter c :: es), ws'. split; [apply inside_unknown; assumption|exact L].
      * right. apply dash_unknown; assumption.
Qed.

Ltac same_letter :=
  repeat match goal with
  | A : letter_means _ ?c ?k, B : letter_means _ ?c ?j |- _ =>
      let E := fresh in pose proof (letter_unique os c k j A B) as E; subst; clear B
  | A : option_takes _ ?k ?t, B : option_takes _ ?k ?u |- _ =>
      let E := fresh in pose proof (takes_unique os k t u A B) as E; subst; clear B
  end.

Lemma inside_unique w p ws es ws' : inside os w p ws es ws' ->
  forall es2 ws2, inside os w p ws es2 ws2 -> es = es2 /\ ws' = ws2.
Proof.
  intros H. induction H as [ws|c p ws es ws' Nc Nm H IH|c p ws k es ws' Lm Ht H IH|c p ws k t Lm Ht Nt Np
                            |c v ws k Lm Ht|c k Lm Ht|c ws k Lm Ht|s ws e ws' Ns LO]; intros es2 ws2 H2;
    inversion H2; subst; clear H2; same_letter; try congruence; auto;
    try (exfalso; match goal with N : forall k, ~ letter_means _ ?c k, M : letter_means _ ?c _ |- _ => exact (N _ M) end);
    try (exfalso; match goal with M : letter_means _ "-" _ |- _ => exact (any_letter_dash _ M) end);
    try match goal with H3 : inside _ _ ?p ?ws ?es3 ?ws3 |- _ => destruct (IH _ _ H3) as [-> ->]; auto end.
  match goal with L2 : long_option _ _ _ _ ?e2 _ |- [?e] = [?e2] /\ _ => destruct (any_long_unique os _ _ _ _ _ _ _ LO L2) as [-> ->]; auto end.
Qed.

Lemma inside_no_dash w p ws es ws' : inside os w p ws es ws' -> ends_in_dash os p -> False.
Proof.
  intros H. induction H as [ws|c p ws es ws' Nc Nm H IH|c p ws k es ws' Lm Ht H IH|c p ws k t Lm Ht Nt Np
                            |c v ws k Lm Ht|c k Lm Ht|c ws k Lm Ht|s ws e ws' Ns LO]; intros D;
    inversion D; subst; clear D; same_letter; try congruence; auto;
    try (match goal with N : forall k, ~ letter_means _ ?c k, M : letter_means _ ?c _ |- _ => exact (N _ M) end);
    try (match goal with M : letter_means _ "-" _ |- _ => exact (any_letter_dash _ M) end).
Qed.

Theorem any_reads_total posix ws : (exists es r, reads os posix ws es r) \/ gets_stuck os posix ws.
Proof.
  remember (len ws) as n eqn:E. assert (len ws <= n) as L by lia. clear E.
  revert ws L. induction n as [|n IH]; intros ws L.
  - destruct ws; [|cbn in L; lia]. left. exists [], []. constructor.
  - destruct ws as [|w ws]; [left; exists [], []; constructor|]. cbn [List.length] in L.
    destruct (option_word_dec w) as [(c & r & ->)|Nw].
    + destruct (list_eq_dec ascii_dec (c :: r) (lit "-")) as [E|N].
      * left. exists [], ws. rewrite E. apply reads_dashes.
      * destruct (inside_exists ("-"%char :: c :: r) (c :: r) ws) as [(es & ws' & H & Ll)|H].
        -- destruct (IH ws' ltac:(lia)) as [(es' & r' & H')|H'].
           ++ left. exists (es ++ es'), r'. apply (reads_word os posix (c :: r) ws es ws' es' r'); auto. discriminate.
           ++ right. apply (stuck_later os posix (c :: r) ws es ws'); auto. discriminate.
        -- right. apply stuck_here; assumption.
    + destruct (Bool.bool_dec posix true) as [Px|Px].
      * left. exists [], (w :: ws). apply reads_posix_stop; auto.
      * apply not_true_is_false in Px. destruct (IH ws ltac:(lia)) as [(es & r' & H)|H].
        -- left. exists es, (w :: r'). apply reads_other; auto.
        -- right. apply stuck_other; auto.
Qed.

Lemma dash_word_option p : p <> [] -> option_word ("-"%char :: p).
Proof. intros H. destruct p as [|c r]; [congruence|]. exists c, r. reflexivity. Qed.
Lemma dashes_option : option_word (lit "--").
Proof. exists "-"%char, []. reflexivity. Qed.

Theorem any_reads_unique posix ws es r : reads os posix ws es r -> forall es2 r2, reads os posix ws es2 r2 -> es = es2 /\ r = r2.
Proof.
  intros H. induction H as [|w ws es r Nw Px H IH|w ws Nw Px|ws|p ws es ws' es' r N1 N2 Hin H IH]; intros es2 r2 H2.
  - inversion H2; auto.
  - inversion H2 as [|? ? ? ? ? ? H3|? ? ? ?|?|? ? ? ? ? ? ? ? ? H3]; subst; clear H2; try congruence.
    + destruct (IH _ _ H3) as [-> ->]. auto.
    + destruct (Nw dashes_option).
    + exfalso. apply Nw. apply dash_word_option. assumption.
  - inversion H2 as [|? ? ? ? ? ? H3|? ? ? ?|?|? ? ? ? ? ? ? ? ? H3]; subst; clear H2; try congruence; auto.
    + destruct (Nw dashes_option).
    + exfalso. apply Nw. apply dash_word_option. assumption.
  - inversion H2 as [|? ? ? ? Nw ? H3|? ? Nw ?|?|? ? ? ? ? ? ? ? ? H3]; subst; clear H2; auto.
    + destruct (Nw dashes_option).
    + destruct (Nw dashes_option).
    + exfalso. match goal with X : ["-"%char] <> lit "-" |- _ => apply X; reflexivity end.
  - inversion H2 as [|? ? ? ? Nw ? H3|? ? Nw ?|?|? ? es0 ws0 es1 ? ? ? Hin2 H3]; subst; clear H2.
    + destruct (Nw (dash_word_option _ N1)).
    + destruct (Nw (dash_word_option _ N1)).
    + exfalso. apply N2. reflexivity.
    + destruct (inside_unique _ _ _ _ _ Hin _ _ Hin2) as [<- <-]. destruct (IH _ _ H3) as [-> ->]. auto.
Qed.

Theorem reads_not_stuck posix ws es r : reads os posix ws es r -> gets_stuck os posix ws -> False.
Proof.
  intros H. induction H as [|w ws es r Nw Px H IH|w ws Nw Px|ws|p ws es ws' es' r N1 N2 Hin H IH]; intros G.
  - inversion G.
  - inversion G as [? ? ? D|? ? ? ? G2|? ? ? ? X ? ? G2]; subst; auto.
    + apply Nw. apply dash_word_option. intros ->. inversion D.
    + apply Nw. apply dash_word_option. exact X.
  - inversion G as [? ? ? D|? ? ? ? G2|? ? ? ? X ? ? G2]; subst; try congruence.
    + apply Nw. apply dash_word_option. intros ->. inversion D.
    + apply Nw. apply dash_word_option. exact X.
  - inversion G as [? ? Np ?|? ? Nw ? ?|? ? ? ? ? Np ? ?]; subst.
    + apply Np. reflexivity.
    + apply Nw. apply dashes_option.
    + apply Np. reflexivity.
  - inversion G as [? ? ? D|? ? Nw ? ?|? ? ? ? ? Np Hin2 G2]; subst.
    + exact (inside_no_dash _ _ _ _ _ Hin D).
    + apply Nw. apply dash_word_option. exact N1.
    + destruct (inside_unique _ _ _ _ _ Hin _ _ Hin2) as [<- <-]. auto.
Qed.

(** ** Outcomes *)
Variable St : Type.
Variable bs : list (behaviour St).
Hypothesis LB : len bs = len os.

Definition event_valid (e : event) : Prop :=
  match e with Long k _ _ => k < len os | Short k _ => k < len os | _ => True end.

Lemma takes_valid k t : option_takes os k t -> k < len os.
Proof. intros (o & E & _). apply nth_error_Some. congruence. Qed.

Lemma inside_valid w p ws es ws' : inside os w p ws es ws' -> Forall event_valid es.
Proof.
  assert (forall s ws e ws', long_option os w s ws e ws' -> event_valid e) as V.
  { intros s ws0 e ws0' LO. destruct LO; cbn [event_valid]; auto; eapply takes_valid; eassumption. }
  intros H. induction H; repeat constructor; auto; cbn [event_valid]; try (eapply takes_valid; eassumption).
  eapply V. eassumption.
Qed.

Lemma reads_valid posix ws es r : reads os posix ws es r -> Forall event_valid es.
Proof.
  intros H. induction H as [| | | |p ws es ws' es' r N1 N2 Hin H IH]; auto.
  apply Forall_app. split; [eapply inside_valid; eassumption|exact IH].
Qed.

Lemma put_length k (s : St) objs : len (put St k s objs) = len objs.
Proof. revert k. induction objs as [|x l IH]; intros [|k]; cbn; auto. Qed.

Lemma offers_exists k v objs : k < len os -> len objs = len os -> exists r, offers St bs k v objs r.
Proof.
  intros L Lo. destruct (nth_error bs k) as [b|] eqn:Eb; [|apply nth_error_None in Eb; lia].
  destruct (nth_error objs k) as [s|] eqn:Es; [|apply nth_error_None in Es; lia].
  destruct (b_accept b) as [f|] eqn:Ef; [|exists (Val (objs, None)); apply (offers_nobody St bs k v objs b Eb Ef)].
  destruct (f v s) as [[c s']|] eqn:Er.
  - destruct (Z.eq_dec c 0) as [->|N].
    + eexists. eapply offers_taken; eassumption.
    + eexists. eapply offers_refused; eassumption.
  - eexists. eapply offers_undefined; eassumption.
Qed.

Lemma offers_length k v objs objs' a : offers St bs k v objs (Val (objs', a)) -> len objs' = len objs.
Proof. intros H. inversion H; subst; auto; apply put_length. Qed.

Lemma offers_unique k v objs r r2 : offers St bs k v objs r -> offers St bs k v objs r2 -> r = r2.
Proof.
  intros H H2. inversion H; subst; inversion H2; subst; auto;
    repeat match goal with
    | A : nth_error ?l ?k = Some _, B : nth_error ?l ?k = Some _ |- _ => rewrite A in B; injection B as; subst
    | A : b_accept ?b = Some _, B : b_accept ?b = Some _ |- _ => rewrite A in B; injection B as; subst
    | A : ?f ?v ?s = Val _, B : ?f ?v ?s = Val _ |- _ => rewrite A in B; injection B as; subst
    end; congruence.
Qed.

Lemma happens_exists objs e : event_valid e -> len objs = len os -> exists r, happens St os bs objs e r /\
  forall objs' errs, r = Val (objs', errs) -> len objs' = len os.
Proof.
  intros V L. destruct e as [k v l|k v|w|w|c]; cbn [event_valid] in V.
  - destruct (offers_exists k v objs V L) as ([[o a]|] & H); eexists; (split; [econstructor; exact H|]); [|discriminate].
    intros objs' errs E. injection E as <- _. rewrite (offers_length _ _ _ _ _ H). exact L.
  - destruct (offers_exists k v objs V L) as ([[o a]|] & H); eexists; (split; [econstructor; exact H|]); [|discriminate].
    intros objs' errs E. injection E as <- _. rewrite (offers_length _ _ _ _ _ H). exact L.
  - eexists; split; [constructor|]. intros ? ? E. injection E as <- _. exact L.
  - eexists; split; [constructor|]. intros ? ? E. injection E as <- _. exact L.
  - eexists; split; [constructor|]. intros ? ? E. injection E as <- _. exact L.
Qed.

Lemma happen_exists es : Forall event_valid es -> forall objs, len objs = len os -> exists r, happen St os bs objs es r /\
  forall objs' errs, r = Val (objs', errs) -> len objs' = len os.
Proof.
  intros F. induction F as [|e es Ve F IH]; intros objs L.
  - eexists. split; [constructor|]. intros ? ? E. injection E as <- _. exact L.
  - destruct (happens_exists objs e Ve L) as ([[o er]|] & H & Hl).
    + destruct (IH o (Hl _ _ eq_refl)) as ([[o2 er2]|] & H2 & Hl2).
      * eexists. split; [eapply happen_then; eassumption|]. intros ? ? E. injection E as <- _. apply (Hl2 _ _ eq_refl).
      * eexists. split; [eapply happen_later; eassumption|discriminate].
    + eexists. split; [apply happen_undefined; exact H|discriminate].
Qed.

Lemma happens_unique objs e r r2 : happens St os bs objs e r -> happens St os bs objs e r2 -> r = r2.
Proof.
  intros H H2. inversion H; subst; inversion H2; subst; auto;
    match goal with A : offers _ _ _ _ _ _, B : offers _ _ _ _ _ _ |- _ => pose proof (offers_unique _ _ _ _ _ A B) as E end; congruence.
Qed.

Lemma happen_unique objs es r : happen St os bs objs es r -> forall r2, happen St os bs objs es r2 -> r = r2.
Proof.
  intros H. induction H as [objs|objs e es objs1 errs1 objs2 errs2 H1 H2 IH|objs e es H|objs e es objs1 errs1 H1 H2 IH];
    intros r2 K; inversion K; subst; auto;
    repeat match goal with A : happens _ _ _ ?o ?e _, B : happens _ _ _ ?o ?e _ |- _ =>
      let X := fresh in pose proof (happens_unique _ _ _ _ A B) as X; clear B; try (injection X as; subst); try discriminate end;
    try match goal with B : happen _ _ _ _ _ _ |- _ => pose proof (IH _ B) as E; congruence end.
Qed.

Lemma shared_exists ks : Forall (fun k => k < len os) ks -> forall n ws last objs,
  len ws + len ks <= n -> len objs = len os -> len last <= 1 -> exists r, shared St bs ks ws last objs r.
Proof.
  intros F n. revert ks F. induction n as [|n IH]; intros ks F ws last objs Ln L Ll.
  - destruct ws; [|cbn in Ln; lia]. eexists. constructor.
  - destruct ws as [|w ws]; [eexists; constructor|].
    destruct F as [|k ks Fk F].
    + destruct last as [|e [|? ?]]; [eexists; constructor|eexists; constructor|cbn in Ll; lia].
    + destruct (offers_exists k (Some w) objs Fk L) as ([[o [code|]]|] & H).
      * destruct (IH ks F (w :: ws) [Refused k code (Some w)] o) as (r & Hr); [cbn in *; lia|rewrite (offers_length _ _ _ _ _ H); exact L|cbn; lia|].
        exists r. eapply shared_refused; eassumption.
      * destruct (IH (k :: ks) (Forall_cons (P := fun k => k < len os) k Fk F) ws [] o) as (r & Hr); [cbn in *; lia|rewrite (offers_length _ _ _ _ _ H); exact L|cbn; lia|].
        exists r. eapply shared_taken; eassumption.
      * exists UB. apply shared_undefined. exact H.
Qed.

Lemma shared_unique ks ws last objs r : shared St bs ks ws last objs r -> forall r2, shared St bs ks ws last objs r2 -> r = r2.
Proof.
  intros H. induction H as [ks last objs|k ks w ws last objs objs1 r Ho H IH|k ks w ws last objs objs1 code r Ho H IH|k ks w ws last objs Ho|w ws objs|w ws e objs];
    intros r2 K; inversion K; subst; auto;
    repeat match goal with A : offers _ _ _ _ _ _, B : offers _ _ _ _ _ _ |- _ =>
      let X := fresh in pose proof (offers_unique _ _ _ _ _ A B) as X; clear B; try (injection X as; subst); try discriminate end; auto.
Qed.

Lemma restarted_length : forall (bs0 : list (behaviour St)) objs, len objs = len bs0 -> len (restarted St bs0 objs) = len objs.
Proof. induction bs0 as [|b bs0 IH]; intros [|s objs] L; try discriminate; cbn in *; [reflexivity|]. rewrite IH; lia. Qed.

Theorem outcome_exists em posix words objs : len objs = len os ->
  (exists out, outcome St os bs em posix words objs out) \/ gets_stuck os posix words.
Proof.
  intros L. destruct (any_reads_total posix words) as [(es & rest & Hr)|H]; [left|right; exact H].
  assert (len (restarted St bs objs) = len os) as Lr by (rewrite restarted_length; lia).
  destruct (happen_exists es (reads_valid _ _ _ _ Hr) _ Lr) as ([[o er]|] & Hh & Hl).
  - destruct (shared_exists (positionals St os bs)) with (n := len rest + len (positionals St os bs)) (ws := rest) (last := @nil error) (objs := o)
      as ([[o2 er2]|] & Hs).
    + apply Forall_forall. intros k Ik. unfold positionals in Ik. apply filter_In in Ik. destruct Ik as [Ik _]. apply in_seq in Ik. lia.
    + lia.
    + apply (Hl _ _ eq_refl).
    + cbn. lia.
    + eexists. eapply outcome_fine; eassumption.
    + eexists. eapply outcome_undefined_argument; eassumption.
  - eexists. eapply outcome_undefined_option; eassumption.
Qed.

Theorem outcome_unique em posix words objs r r2 :
  outcome St os bs em posix words objs r -> outcome St os bs em posix words objs r2 -> r = r2.
Proof.
  intros H H2. destruct H; inversion H2; subst;
    repeat match goal with A : reads _ _ _ _ _, B : reads _ _ _ _ _ |- _ =>
      destruct (any_reads_unique _ _ _ _ A _ _ B) as [? ?]; subst; clear B end;
    repeat match goal with A : happen _ _ _ _ ?e _, B : happen _ _ _ _ ?e _ |- _ =>
      let X := fresh in pose proof (happen_unique _ _ _ A _ B) as X; clear B; try (injection X as; subst); try discriminate end;
    repeat match goal with A : shared _ _ _ ?e _ _ _, B : shared _ _ _ ?e _ _ _ |- _ =>
      let X := fresh in pose proof (shared_unique _ _ _ _ _ A _ B) as X; clear B; try (injection X as; subst); try discriminate end; auto.
Qed.

Theorem outcome_not_stuck em posix words objs r : outcome St os bs em posix words objs r -> gets_stuck os posix words -> False.
Proof. intros H. destruct H; eapply reads_not_stuck; eassumption. Qed.
End Total.
