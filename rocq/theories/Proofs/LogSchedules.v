(** Several processes writing to one log file. *)
From Coq Require Import ZArith NArith Bool List Ascii String Arith Lia.
From Verif.Base Require Import CInt CStr CMem.
From Verif.Model Require Import Logger.
From Verif.Spec Require Import LogSpec.
From Verif.Proofs Require Import LogProofs.
Import ListNotations.
Open Scope list_scope.
Open Scope nat_scope.

Definition active (x : pc) : Prop := match x with Writing _ _ | Unlocking => True | _ => False end.

Lemma set_eq {A} (f : nat -> A) p x : set f p x p = x.
Proof. unfold set. rewrite Nat.eqb_refl. reflexivity. Qed.
Lemma set_neq {A} (f : nat -> A) p x q : q <> p -> set f p x q = f q.
Proof. intros N. unfold set. apply Nat.eqb_neq in N. rewrite N. reflexivity. Qed.

Lemma exec_app ofd s tr1 s1 tr2 s2 : exec ofd s tr1 s1 -> exec ofd s1 tr2 s2 -> exec ofd s (tr1 ++ tr2) s2.
Proof. induction 1 as [|s e s0 tr s1 S E IH]; intros H; [exact H|]. cbn. econstructor; [exact S|]. apply IH, H. Qed.

Lemma exec_split ofd s tr1 tr2 s2 : exec ofd s (tr1 ++ tr2) s2 -> exists s1, exec ofd s tr1 s1 /\ exec ofd s1 tr2 s2.
Proof.
  revert s. induction tr1 as [|e tr1 IH]; intros s H.
  - exists s. split; [constructor|exact H].
  - cbn in H. inversion H as [|e' s1 tr s' S E]; subst. destruct (IH _ E) as (s3 & E1 & E2).
    exists s3. split; [econstructor; eassumption|exact E2].
Qed.

Section Distinct.
Variable ofd : nat -> nat.
Hypothesis distinct : forall p q, ofd p = ofd q -> p = q.

(** Who writes or is about to unlock holds the lock. *)
Definition held (s : lstate) : Prop := forall p, active (l_pc s p) -> l_lock s = Some (ofd p).

Lemma held_step s e s' : held s -> step ofd s e (Val s') -> held s'.
Proof.
  intros H S. unfold held in *.
  inversion S as [p c data buf Pc Ed|p c Pc Eu|p data Pc Lk|p data Pc|p n b rest Pc|p n Pc|p n b rest Pc|p rest Pc|p Pc|p Pc|o Pc]; subst; cbn [l_pc l_lock]; intros q A;
    repeat match goal with
    | A : active (set _ ?p _ ?q) |- _ =>
        destruct (Nat.eq_dec q p) as [->|?];
        [rewrite set_eq in A; try contradiction A|rewrite set_neq in A by assumption]
    end; auto.
  - destruct Lk as [E|E]; rewrite (H _ A) in E; [discriminate|]. congruence.
  - apply H. rewrite Pc. exact I.
  - apply H. rewrite Pc. exact I.
  - apply H. rewrite Pc. exact I.
  - rewrite (H _ A). assert (l_lock s = Some (ofd p)) as E by (apply H; rewrite Pc; exact I).
    rewrite (H _ A) in E. injection E as E. apply distinct in E. contradiction.
  - destruct (ofd q =? o) eqn:E; [contradiction A|]. rewrite (H _ A), E. reflexivity.
Qed.

Lemma held_exec s tr s' : held s -> exec ofd s tr s' -> held s'.
Proof. intros H E. induction E as [|s e s1 tr s2 S E IH]; [exact H|]. apply IH. eapply held_step; eassumption. Qed.

Lemma held_quiet f0 : held (quiet f0).
Proof. intros p []. Qed.

(** The lock stays where it is until it is released or the file is closed. *)
Lemma lock_stays s tr s' p : l_lock s = Some (ofd p) -> held s -> exec ofd s tr s' ->
  ~ In (Unlocked p) tr -> ~ In (Closed (ofd p)) tr ->
  l_lock s' = Some (ofd p) /\ forall q, In (Locked q) tr -> q = p.
Proof.
  intros L H E. induction E as [|s e s1 tr s2 S E IH]; intros N1 N2; [split; [exact L|intros q []]|].
  assert (l_lock s1 = Some (ofd p) /\ forall q, e = Locked q -> q = p) as [L1 Q].
  { inversion S as [r c data buf Pc Ed|r c Pc Eu|r data Pc Lk|r data Pc|r n b rest Pc|r n Pc|r n b rest Pc|r rest Pc|r Pc|r Pc|o Pc]; subst; cbn [l_lock]; try (split; [exact L|intros ? [=]]; fail).
    - destruct Lk as [X|X]; [congruence|]. rewrite L in X. injection X as X. apply distinct in X. subst.
      split; [reflexivity|]. intros q [=]. auto.
    - rewrite L. split; [|intros ? [=]]. destruct (ofd p =? ofd r) eqn:X; [|reflexivity].
      apply Nat.eqb_eq, distinct in X. subst. exfalso. apply N1. left. reflexivity.
    - rewrite L. split; [|intros ? [=]]. destruct (ofd p =? o) eqn:X; [|reflexivity].
      apply Nat.eqb_eq in X. subst. exfalso. apply N2. left. reflexivity. }
  destruct IH as [L2 Q2]; [exact L1|eapply held_step; eassumption|intros I; apply N1; right; exact I|
    intros I; apply N2; right; exact I|].
  split; [exact L2|]. intros q [I|I]; [apply Q; exact I|apply Q2; exact I].
Qed.

Lemma exclusive f0 a p m q b s : exec ofd (quiet f0) (a ++ Byte p :: m ++ Byte q :: b) s -> p <> q ->
  In (Unlocked p) m \/ In (Closed (ofd p)) m.
Proof.
  intros E N. apply exec_split in E as (s1 & E1 & E2). pose proof (held_exec _ _ _ (held_quiet f0) E1) as H1.
  inversion E2 as [|e s2 tr s3 S E3]; subst. pose proof (held_step _ _ _ H1 S) as H2.
  assert (l_lock s2 = Some (ofd p)) as L2.
  { apply H2. inversion S; subst. cbn [l_pc]. rewrite set_eq. exact I. }
  apply exec_split in E3 as (s4 & E4 & E5). pose proof (held_exec _ _ _ H2 E4) as H4.
  assert (l_lock s4 = Some (ofd q)) as L4.
  { apply H4. inversion E5 as [|e' s5 tr' s6 S5 E6]; subst. inversion S5; subst.
    match goal with X : l_pc s4 q = _ |- _ => rewrite X end. exact I. }
  assert (In (Unlocked p) m \/ ~ In (Unlocked p) m) as [D|D].
  { clear. induction m as [|e m IH]; [right; intros []|]. destruct IH as [IH|IH]; [left; right; exact IH|].
    destruct e; try (right; intros [X|X]; [discriminate X|exact (IH X)]; fail).
    destruct (Nat.eq_dec p0 p) as [->|Ne]; [left; left; reflexivity|].
    right. intros [X|X]; [injection X as X; contradiction|exact (IH X)]. }
  { left. exact D. }
  assert (In (Closed (ofd p)) m \/ ~ In (Closed (ofd p)) m) as [D'|D'].
  { clear. induction m as [|e m IH]; [right; intros []|]. destruct IH as [IH|IH]; [left; right; exact IH|].
    destruct e; try (right; intros [X|X]; [discriminate X|exact (IH X)]; fail).
    destruct (Nat.eq_dec o (ofd p)) as [->|Ne]; [left; left; reflexivity|].
    right. intros [X|X]; [injection X as X; contradiction|exact (IH X)]. }
  { right. exact D'. }
  destruct (lock_stays _ _ _ _ L2 H2 E4 D D') as [L _]. rewrite L in L4. injection L4 as L4.
  apply distinct in L4. contradiction.
Qed.

Lemma failed_write_blocks f0 a p tr s : exec ofd (quiet f0) (a ++ WriteFails p :: tr) s ->
  ~ In (Unlocked p) tr -> ~ In (Closed (ofd p)) tr ->
  l_lock s = Some (ofd p) /\ forall q, q <> p -> ~ In (Locked q) tr.
Proof.
  intros E N1 N2. apply exec_split in E as (s1 & E1 & E2). pose proof (held_exec _ _ _ (held_quiet f0) E1) as H1.
  inversion E2 as [|e s2 tr' s3 S E3]; subst. pose proof (held_step _ _ _ H1 S) as H2.
  assert (l_lock s2 = Some (ofd p)) as L2.
  { inversion S; subst. cbn [l_lock]. apply H1. match goal with X : l_pc s1 p = _ |- _ => rewrite X end. exact I. }
  destruct (lock_stays _ _ _ _ L2 H2 E3 N1 N2) as [L Q]. split; [exact L|].
  intros q Nq I. apply Nq, Q, I.
Qed.

(** ** Whole lines *)

Variable f0 : str.

Record whole (cur : nat -> option call) (g : list call) (s : lstate) : Prop := {
  w_held : held s;
  w_holder : forall o, l_lock s = Some o -> exists p, ofd p = o /\ active (l_pc s p);
  w_sized : forall p, sized (l_buf s p);
  w_locking : forall p d, l_pc s p = Locking d -> exists c, cur p = Some c /\ asks_line c d;
  w_file : exists lines, Forall2 asks_line g lines /\
    (forall p n rest, l_pc s p = Writing n rest -> l_file s ++ rest = f0 ++ List.concat lines) /\
    ((forall p n rest, l_pc s p <> Writing n rest) -> l_file s = f0 ++ List.concat lines)
}.

Lemma asks_line_fun c l l' : asks_line c l -> asks_line c l' -> l = l'.
Proof.
  intros A A'. inversion A as [lv note source line text date Lv Li Ns Nd Ld Ec El]; subst.
  inversion A' as [lv' note' source' line' text' date' Lv' Li' Ns' Nd' Ld' Ec' El']; subst.
  assert (note = note') as <-; [|reflexivity]. destruct Lv; inversion Lv'; reflexivity.
Qed.

Lemma whole_quiet : whole (fun _ => None) [] (quiet f0).
Proof.
  constructor; cbn.
  - apply held_quiet.
  - discriminate.
  - intros _. apply fresh_sized.
  - discriminate.
  - exists []. split; [constructor|]. split; [discriminate|]. intros _. symmetry. apply app_nil_r.
Qed.

Definition cur_after (cur : nat -> option call) (e : event) : nat -> option call :=
  match e with Start p c => fun q => if q =? p then Some c else cur q | _ => cur end.
Definition grant_of (cur : nat -> option call) (e : event) : list call :=
  match e with Locked p => match cur p with Some c => [c] | None => [] end | _ => [] end.

Lemma granted_cons cur e tr : granted cur (e :: tr) = grant_of cur e ++ granted (cur_after cur e) tr.
Proof. destruct e; cbn; try reflexivity. destruct (cur p); reflexivity. Qed.

(** Nobody else writes. *)
Lemma only_writer s p : held s -> l_lock s = Some (ofd p) -> forall q n rest, l_pc s q = Writing n rest -> q = p.
Proof.
  intros H L q n rest E. assert (l_lock s = Some (ofd q)) as X by (apply H; rewrite E; exact I).
  rewrite L in X. injection X as X. symmetry. apply distinct, X.
Qed.

Lemma whole_step cur g s e s' : whole cur g s -> ~ trouble e -> (forall c, In c (started [e]) -> short_line c) ->
  step ofd s e (Val s') -> whole (cur_after cur e) (g ++ grant_of cur e) s'.
Proof.
  intros W T Sh S. pose proof (held_step _ _ _ (w_held _ _ _ W) S) as H'.
  destruct W as [Wh Wo Wz Wl (lines & F & Wr & Wn)].
  inversion S as [p c data buf Pc Ed|p c Pc Eu|p data Pc Lk|p data Pc|p n b rest Pc|p n Pc|p n b rest Pc|p rest Pc|p Pc|p Pc|o Pc]; subst;
    try (exfalso; apply T; exact I); cbn [cur_after grant_of]; rewrite ?app_nil_r.
  - (* start *)
    destruct (Sh c) as (l & Al & Ll); [left; reflexivity|].
    destruct (data_line (l_buf s p) c l (Wz p) Al Ll) as (s1 & Z1 & E1). rewrite E1 in Ed. injection Ed as <- <-.
    constructor; cbn [l_pc l_lock l_file l_buf]; auto.
    + intros o Lo. destruct (Wo o Lo) as (q & Eq & Aq). exists q. split; [exact Eq|].
      rewrite set_neq; [exact Aq|]. intros ->. rewrite Pc in Aq. exact Aq.
    + intros q. destruct (Nat.eq_dec q p) as [->|N]; [rewrite set_eq; exact Z1|rewrite set_neq by exact N; apply Wz].
    + intros q d. destruct (Nat.eqb_spec q p) as [->|N].
      * rewrite set_eq. intros [= <-]. exists c. auto.
      * rewrite set_neq by exact N. apply Wl.
    + exists lines. split; [exact F|]. split.
      * intros q n rest. destruct (Nat.eq_dec q p) as [->|N]; [rewrite set_eq; discriminate|rewrite set_neq by exact N; apply Wr].
      * intros Q. apply Wn. intros q n rest E. destruct (Nat.eq_dec q p) as [->|N]; [congruence|].
        apply (Q q n rest). rewrite set_neq by exact N. exact E.
  - (* locked *)
    assert (forall q n rest, l_pc s q <> Writing n rest) as Nw.
    { intros q n rest E. assert (l_lock s = Some (ofd q)) as X by (apply Wh; rewrite E; exact I).
      destruct Lk as [Lk|Lk]; rewrite X in Lk; [discriminate|]. injection Lk as Lk. apply distinct in Lk. congruence. }
    destruct (Wl p data Pc) as (c & Ec & Ac). rewrite Ec.
    constructor; cbn [l_pc l_lock l_file l_buf]; auto.
    + intros o [= <-]. exists p. split; [reflexivity|]. rewrite set_eq. exact I.
    + intros q d. destruct (Nat.eq_dec q p) as [->|N]; [rewrite set_eq; discriminate|rewrite set_neq by exact N; apply Wl].
    + exists (lines ++ [data]). split; [apply Forall2_app; [exact F|constructor; [exact Ac|constructor]]|]. split.
      * intros q n rest. destruct (Nat.eq_dec q p) as [->|N].
        -- rewrite set_eq. intros [= _ <-]. rewrite (Wn Nw), concat_app. cbn [List.concat]. rewrite app_nil_r, app_assoc. reflexivity.
        -- rewrite set_neq by exact N. intros E. exfalso. apply (Nw q n rest E).
      * intros Q. exfalso. apply (Q p 0 data). apply set_eq.
  - (* lock fails *)
    constructor; cbn [l_pc l_lock l_file l_buf]; auto.
    + intros o Lo. destruct (Wo o Lo) as (q & Eq & Aq). exists q. split; [exact Eq|].
      rewrite set_neq; [exact Aq|]. intros ->. rewrite Pc in Aq. exact Aq.
    + intros q d. destruct (Nat.eq_dec q p) as [->|N]; [rewrite set_eq; discriminate|rewrite set_neq by exact N; apply Wl].
    + exists lines. split; [exact F|]. split.
      * intros q n rest. destruct (Nat.eq_dec q p) as [->|N]; [rewrite set_eq; discriminate|rewrite set_neq by exact N; apply Wr].
      * intros Q. apply Wn. intros q n rest E. destruct (Nat.eq_dec q p) as [->|N]; [congruence|].
        apply (Q q n rest). rewrite set_neq by exact N. exact E.
  - (* byte *)
    assert (l_lock s = Some (ofd p)) as L by (apply Wh; rewrite Pc; exact I).
    constructor; cbn [l_pc l_lock l_file l_buf]; auto.
    + intros o Lo. exists p. split; [congruence|]. rewrite set_eq. exact I.
    + intros q d. destruct (Nat.eq_dec q p) as [->|N]; [rewrite set_eq; discriminate|rewrite set_neq by exact N; apply Wl].
    + exists lines. split; [exact F|]. split.
      * intros q m rest'. destruct (Nat.eq_dec q p) as [->|N].
        -- rewrite set_eq. intros [= _ <-]. rewrite <- app_assoc. apply (Wr p n (b :: rest) Pc).
        -- rewrite set_neq by exact N. intros E. exfalso. apply N. apply (only_writer s p Wh L q m rest' E).
      * intros Q. exfalso. apply (Q p (Datatypes.S n) rest). apply set_eq.
  - (* wrote *)
    assert (l_lock s = Some (ofd p)) as L by (apply Wh; rewrite Pc; exact I).
    constructor; cbn [l_pc l_lock l_file l_buf]; auto.
    + intros o Lo. exists p. split; [congruence|]. rewrite set_eq. exact I.
    + intros q d. destruct (Nat.eq_dec q p) as [->|N]; [rewrite set_eq; discriminate|rewrite set_neq by exact N; apply Wl].
    + exists lines. split; [exact F|]. split.
      * intros q m rest'. destruct (Nat.eq_dec q p) as [->|N]; [rewrite set_eq; discriminate|].
        rewrite set_neq by exact N. intros E. exfalso. apply N. apply (only_writer s p Wh L q m rest' E).
      * intros _. rewrite <- (Wr p n [] Pc). symmetry. apply app_nil_r.
  - (* unlocked *)
    assert (l_lock s = Some (ofd p)) as L by (apply Wh; rewrite Pc; exact I).
    assert (forall q n rest, l_pc s q <> Writing n rest) as Nw.
    { intros q n rest E. rewrite (only_writer s p Wh L q n rest E) in E. congruence. }
    constructor; cbn [l_pc l_lock l_file l_buf]; auto.
    + rewrite L, Nat.eqb_refl. discriminate.
    + intros q d. destruct (Nat.eq_dec q p) as [->|N]; [rewrite set_eq; discriminate|rewrite set_neq by exact N; apply Wl].
    + exists lines. split; [exact F|]. split; [|intros _; apply Wn, Nw].
      intros q m rest'. destruct (Nat.eq_dec q p) as [->|N]; [rewrite set_eq; discriminate|].
      rewrite set_neq by exact N. intros E. exfalso. apply (Nw q m rest' E).
  - (* closed *)
    constructor; cbn [l_pc l_lock l_file l_buf]; auto.
    + intros o'. destruct (l_lock s) as [o1|] eqn:L; [|discriminate]. destruct (o1 =? o) eqn:X; [discriminate|].
      intros [= <-]. destruct (Wo o1 eq_refl) as (q & Eq & Aq). exists q. split; [exact Eq|]. rewrite Eq, X. exact Aq.
    + intros q d. destruct (ofd q =? o); [discriminate|apply Wl].
    + exists lines. split; [exact F|]. split.
      * intros q n rest. destruct (ofd q =? o); [discriminate|apply Wr].
      * intros Q. apply Wn. intros q n rest E. apply (Q q n rest). destruct (ofd q =? o) eqn:X; [|exact E].
        apply Nat.eqb_eq in X. destruct (Pc q X); congruence.
Qed.

Lemma whole_exec s tr s' : exec ofd s tr s' -> forall cur g, whole cur g s -> (forall e, In e tr -> ~ trouble e) ->
  (forall c, In c (started tr) -> short_line c) -> exists cur', whole cur' (g ++ granted cur tr) s'.
Proof.
  induction 1 as [|s e s1 tr s2 S E IH]; intros cur g W T Sh.
  - exists cur. cbn. rewrite app_nil_r. exact W.
  - rewrite granted_cons, app_assoc. apply IH.
    + apply (whole_step cur g s e s1 W); [apply T; left; reflexivity| |exact S].
      intros c I. apply Sh. destruct e; cbn in *; try contradiction. destruct I as [I|[]]. left. exact I.
    + intros e' I. apply T. right. exact I.
    + intros c I. apply Sh. destruct e; cbn; try exact I. right. exact I.
Qed.

Lemma whole_lines tr s : exec ofd (quiet f0) tr s -> (forall e, In e tr -> ~ trouble e) ->
  (forall c, In c (started tr) -> short_line c) ->
  exists lines, Forall2 asks_line (granted (fun _ => None) tr) lines /\
    (exists rest, l_file s ++ rest = f0 ++ List.concat lines) /\
    (at_rest s -> l_file s = f0 ++ List.concat lines /\ l_lock s = None).
Proof.
  intros E T Sh. destruct (whole_exec _ _ _ E _ _ whole_quiet T Sh) as (cur' & W). cbn [app] in W.
  destruct W as [Wh Wo Wz Wl (lines & F & Wr & Wn)]. exists lines. split; [exact F|]. split.
  - destruct (l_lock s) as [o|] eqn:L.
    + destruct (Wo o eq_refl) as (p & Ep & Ap). destruct (l_pc s p) as [|d|n rest| |] eqn:Pc; try contradiction Ap.
      * exists rest. apply (Wr p n rest Pc).
      * exists []. rewrite app_nil_r. apply Wn. intros q n rest Eq.
        assert (Some o = Some (ofd q)) as X by (rewrite <- L; apply Wh; rewrite Eq; exact I).
        injection X as X. rewrite X in Ep. apply distinct in Ep. congruence.
    + exists []. rewrite app_nil_r. apply Wn. intros q n rest Eq.
      assert (None = Some (ofd q)) as X by (rewrite <- L; apply Wh; rewrite Eq; exact I). discriminate X.
  - intros R. split.
    + apply Wn. intros q n rest Eq. destruct (R q) as [X|X]; rewrite X in Eq; discriminate Eq.
    + destruct (l_lock s) as [o|] eqn:L; [|reflexivity]. destruct (Wo o eq_refl) as (p & _ & Ap).
      destruct (R p) as [X|X]; rewrite X in Ap; contradiction Ap.
Qed.
End Distinct.
