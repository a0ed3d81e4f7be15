(** C86: the process limit.  Families, then counting. *)
From Coq Require Import ZArith Bool List Arith Lia.
From Verif.Base Require Import CInt CStr.
From Verif.Model Require Import Config Runner Processes.
From Verif.Spec Require Import ProcSpec.
From Verif.Proofs Require Import ProcBase.
Import ListNotations.
Open Scope Z_scope.

(** ** Families *)
Record shape (x : nat) (fam : list nat) (w : machine) : Prop := mkShape {
  sh_nodup : NoDup fam;
  sh_self : In x fam;
  sh_before : (List.length w <= x)%nat -> fam = [x];
  sh_after : (x < List.length w)%nat -> forall q, In q fam -> (q < List.length w)%nat;
  sh_parent : forall q r p, get w q = Some r -> r_parent r = Proc p -> (p < List.length w)%nat;
  sh_child : forall q r p, get w q = Some r -> r_parent r = Proc p -> In p fam -> In q fam;
  sh_inside : forall q r, get w q = Some r -> In q fam -> q <> x ->
    r_parent r = Init \/ exists p, r_parent r = Proc p /\ In p fam
}.

(** Steps that change one record and neither its parent nor the number of processes. *)
Lemma shape_put : forall x fam w p r r', shape x fam w -> get w p = Some r ->
  r_parent r' = r_parent r -> shape x fam (put w p (Some r')).
Proof.
  intros x fam w p r r' H G E. pose proof (get_lt _ _ _ G) as L.
  destruct H as [A1 A2 A3 A4 A5 A6 A7]. constructor; rewrite ?put_length; auto.
  - intros q s k Q. rewrite get_put in Q by exact L. destruct (Nat.eqb_spec q p) as [->|N]; [|eauto].
    injection Q as <-. rewrite E. eauto.
  - intros q s k Q. rewrite get_put in Q by exact L. destruct (Nat.eqb_spec q p) as [->|N]; [|eauto].
    injection Q as <-. rewrite E. eauto.
  - intros q s Q. rewrite get_put in Q by exact L. destruct (Nat.eqb_spec q p) as [->|N]; [|eauto].
    injection Q as <-. rewrite E. eauto.
Qed.
Lemma shape_gone : forall x fam w p r, shape x fam w -> get w p = Some r -> shape x fam (put w p None).
Proof.
  intros x fam w p r H G. pose proof (get_lt _ _ _ G) as L.
  destruct H as [A1 A2 A3 A4 A5 A6 A7]. constructor; rewrite ?put_length; auto.
  - intros q s k Q. rewrite get_put in Q by exact L. destruct (Nat.eqb_spec q p); [discriminate|eauto].
  - intros q s k Q. rewrite get_put in Q by exact L. destruct (Nat.eqb_spec q p); [discriminate|eauto].
  - intros q s Q. rewrite get_put in Q by exact L. destruct (Nat.eqb_spec q p); [discriminate|eauto].
Qed.
Lemma shape_step : forall x fam w e w', shape x fam w -> step w e = Some w' -> shape x (grow fam e) w'.
Proof.
  intros x fam w e w' H T. apply step_stepped in T.
  destruct e; cbn [stepped grow] in *;
    try (destruct T as (r & G & T); repeat match goal with K : _ /\ _ |- _ => destruct K end; subst w';
         eapply shape_put; [exact H | exact G | reflexivity]).
  - destruct T as (-> & _ & _ & L & G). destruct H as [A1 A2 A3 A4 A5 A6 A7].
    constructor; rewrite ?L; auto.
    + intro. apply A3. lia.
    + intros X q Q. destruct (Nat.eq_dec x (List.length w)) as [->|N].
      * rewrite (A3 (Nat.le_refl _)) in Q. destruct Q as [<-|[]]. lia.
      * specialize (A4 ltac:(lia) q Q). lia.
    + intros q r p Q R. rewrite G in Q. destruct (Nat.eqb q (List.length w)).
      * injection Q as <-. discriminate R.
      * specialize (A5 q r p Q R). lia.
    + intros q r p Q R. rewrite G in Q. destruct (Nat.eqb q (List.length w)).
      * injection Q as <-. discriminate R.
      * eauto.
    + intros q r Q I N. rewrite G in Q. destruct (Nat.eqb_spec q (List.length w)) as [->|M]; [|eauto].
      exfalso. destruct (Nat.lt_ge_cases x (List.length w)) as [X|X].
      * specialize (A4 X _ I). lia.
      * rewrite (A3 X) in I. destruct I as [I|[]]. congruence.
  - destruct T as (r & G & _ & -> & _ & L & _ & K). destruct H as [A1 A2 A3 A4 A5 A6 A7].
    pose proof (get_lt _ _ _ G) as Lp.
    destruct (In_ p fam) eqn:F.
    + apply In__spec in F.
      assert (X : (x < List.length w)%nat).
      { destruct (Nat.lt_ge_cases x (List.length w)) as [X|X]; [exact X|].
        rewrite (A3 X) in F. destruct F as [F|[]]. lia. }
      specialize (A4 X).
      constructor; rewrite ?L.
      * constructor; [|exact A1]. intro I. specialize (A4 _ I). lia.
      * right. exact A2.
      * lia.
      * intros _ q [<-|Q]; [lia|]. specialize (A4 _ Q). lia.
      * intros q s k Q R. rewrite K in Q. destruct (Nat.eqb q (List.length w)).
        -- injection Q as <-. injection R as <-. lia.
        -- specialize (A5 _ _ _ Q R). lia.
      * intros q s k Q R I. rewrite K in Q. destruct (Nat.eqb_spec q (List.length w)) as [->|N].
        -- left. reflexivity.
        -- destruct I as [<-|I]; [specialize (A5 _ _ _ Q R); lia|]. right. eauto.
      * intros q s Q I N. rewrite K in Q. destruct (Nat.eqb_spec q (List.length w)) as [->|M].
        -- injection Q as <-. right. exists p. split; [reflexivity|]. right. exact F.
        -- destruct I as [I|I]; [congruence|]. destruct (A7 _ _ Q I N) as [D|(k & D1 & D2)]; [left; exact D|].
           right. exists k. split; [exact D1|]. right. exact D2.
    + apply In__false in F. constructor; rewrite ?L; auto.
      * intro. apply A3. lia.
      * intros X q Q. destruct (Nat.eq_dec x (List.length w)) as [->|N].
        -- rewrite (A3 (Nat.le_refl _)) in Q. destruct Q as [<-|[]]. lia.
        -- specialize (A4 ltac:(lia) q Q). lia.
      * intros q s k Q R. rewrite K in Q. destruct (Nat.eqb q (List.length w)).
        -- injection Q as <-. injection R as <-. lia.
        -- specialize (A5 _ _ _ Q R). lia.
      * intros q s k Q R I. rewrite K in Q. destruct (Nat.eqb q (List.length w)); [|eauto].
        injection Q as <-. injection R as <-. contradiction.
      * intros q s Q I N. rewrite K in Q. destruct (Nat.eqb_spec q (List.length w)) as [->|M]; [|eauto].
        exfalso. destruct (Nat.lt_ge_cases x (List.length w)) as [X|X].
        -- specialize (A4 X _ I). lia.
        -- rewrite (A3 X) in I. destruct I as [I|[]]. congruence.
  - destruct T as (r & G & _ & L & _ & K). destruct H as [A1 A2 A3 A4 A5 A6 A7].
    constructor; rewrite ?L; auto.
    + intros q s k Q R. rewrite K in Q. destruct (Nat.eqb_spec q p) as [->|N].
      * injection Q as <-. eauto.
      * destruct (get w q) as [t|] eqn:Gq; [|discriminate]. cbn in Q.
        destruct (r_parent t) as [|p'|] eqn:Pt; [injection Q as <-; congruence| |injection Q as <-; congruence].
        destruct (Nat.eqb p' p); injection Q as <-; [discriminate R|]. eauto.
    + intros q s k Q R. rewrite K in Q. destruct (Nat.eqb_spec q p) as [->|N].
      * injection Q as <-. eauto.
      * destruct (get w q) as [t|] eqn:Gq; [|discriminate]. cbn in Q.
        destruct (r_parent t) as [|p'|] eqn:Pt; [injection Q as <-; congruence| |injection Q as <-; congruence].
        destruct (Nat.eqb p' p); injection Q as <-; [discriminate R|]. eauto.
    + intros q s Q I X. rewrite K in Q. destruct (Nat.eqb_spec q p) as [->|N].
      * injection Q as <-. cbn [r_parent ended]. eauto.
      * destruct (get w q) as [t|] eqn:Gq; [|discriminate]. cbn in Q.
        destruct (A7 _ _ Gq I X) as [D|(k & D1 & D2)].
        -- rewrite D in Q. injection Q as <-. left. exact D.
        -- rewrite D1 in Q. destruct (Nat.eqb k p); injection Q as <-; [left; reflexivity | right; eauto].
  - destruct T as (r & s & G & Gs & N & P & _ & _ & L & -> & K).
    apply (shape_put x fam (put w q None) p r); [|rewrite get_put_other by congruence; exact G|reflexivity].
    eapply shape_gone; eauto.
  - destruct T as (s & p & G & _ & _ & ->). eapply shape_gone; eauto.
  - destruct T as (s & G & _ & _ & ->). eapply shape_gone; eauto.
  - destruct T as (s & G & _ & _ & ->). eapply shape_gone; eauto.
Qed.
Lemma shape_history : forall x evs w, history [] evs = Some w -> shape x (family x evs) w.
Proof.
  intros x evs. induction evs as [|e evs IH] using rev_ind; intros w H.
  - injection H as <-. constructor; cbn.
    + constructor; [intros []|constructor].
    + left. reflexivity.
    + reflexivity.
    + lia.
    + intros [|q]; discriminate.
    + intros [|q]; discriminate.
    + intros [|q]; discriminate.
  - apply history_snoc in H. destruct H as (v & V & T). rewrite family_snoc.
    eapply shape_step; eauto.
Qed.

(** ** Counting *)
Lemma filter_seq : forall (f : option process -> bool) w, List.length (filter f w) =
  List.length (filter (fun p => match nth_error w p with Some a => f a | None => false end) (seq 0 (List.length w))).
Proof.
  intros f w. induction w as [|a w IH] using rev_ind; [reflexivity|].
  rewrite filter_app, !app_length, Nat.add_1_r, seq_S, filter_app, app_length. cbn [Nat.add]. f_equal.
  - rewrite IH. f_equal. apply filter_ext_in. intros p P. apply in_seq in P.
    rewrite nth_error_app1 by lia. reflexivity.
  - cbn [filter]. rewrite nth_error_app2, Nat.sub_diag by lia. cbn [nth_error].
    destruct (f a); reflexivity.
Qed.
Lemma NoDup_filter' : forall (f : nat -> bool) l, NoDup l -> NoDup (filter f l).
Proof. intros. apply NoDup_filter. assumption. Qed.

Lemma size_le_count : forall fam w u, NoDup fam ->
  (forall p r, In p fam -> get w p = Some r -> r_user r = u) -> size fam w <= count u w.
Proof.
  intros fam w u N U. unfold size, count. apply Nat2Z.inj_le. rewrite filter_seq.
  apply NoDup_incl_length; [apply NoDup_filter', N|].
  intros p P. apply filter_In in P. destruct P as (P & E). unfold exists_in in E.
  destruct (get w p) as [r|] eqn:G; [|discriminate].
  apply filter_In. split.
  - apply in_seq. apply get_lt in G. lia.
  - pose proof (U p r P G) as Ur. unfold get in G. destruct (nth_error w p) as [[s|]|]; try discriminate.
    injection G as ->. cbn. apply Z.eqb_eq, Ur.
Qed.
Lemma count_le_size : forall fam w u, exclusive u fam w -> count u w <= size fam w.
Proof.
  intros fam w u X. unfold size, count. apply Nat2Z.inj_le. rewrite filter_seq.
  apply NoDup_incl_length; [apply NoDup_filter', seq_NoDup|].
  intros p P. apply filter_In in P. destruct P as (P & E).
  destruct (nth_error w p) as [[r|]|] eqn:G; try discriminate. cbn in E. apply Z.eqb_eq in E.
  assert (G' : get w p = Some r) by (unfold get; rewrite G; reflexivity).
  apply filter_In. split; [exact (X p r G' E)|]. unfold exists_in. rewrite G'. reflexivity.
Qed.

(** Existence after a step. *)
Lemma size_mono : forall fam w w', (forall p, In p fam -> exists_in w' p = true -> exists_in w p = true) ->
  size fam w' <= size fam w.
Proof.
  intros fam w w' H. unfold size. apply Nat2Z.inj_le. induction fam as [|p fam IH]; [cbn; lia|].
  assert (IH' := IH (fun q Q => H q (or_intror Q))). cbn [filter].
  specialize (H p (or_introl eq_refl)).
  destruct (exists_in w' p), (exists_in w p); cbn [List.length]; try lia.
Qed.
Lemma exists_put : forall w p r q, get w p = Some r -> forall r', exists_in (put w p r') q = true -> exists_in w q = true.
Proof.
  intros w p r q G r'. unfold exists_in. rewrite get_put by (eapply get_lt; eauto).
  destruct (Nat.eqb_spec q p) as [->|N]; [|auto]. rewrite G. reflexivity.
Qed.

(** ** The limit *)
Lemma started : forall evs w x c m, history [] evs = Some w -> In (Starts x c m) evs ->
  (x < List.length w)%nat /\ config_invalid c = false.
Proof.
  intros evs. induction evs as [|e evs IH] using rev_ind; intros w x c m H I; [destruct I|].
  apply history_snoc in H. destruct H as (v & V & T). apply step_stepped in T.
  apply in_app_or in I. destruct I as [I|[->|[]]].
  - destruct (IH _ _ _ _ V I) as (L & C). split; [|exact C].
    destruct e; cbn [stepped] in T;
      repeat match goal with K : exists _, _ |- _ => destruct K
                           | K : _ /\ _ |- _ => destruct K end; subst;
      rewrite ?put_length, ?app_length, ?map_length; try lia.
  - cbn in T. destruct T as (-> & C & _ & L & _). split; [lia | exact C].
Qed.

Section Limit.
Variables (x : nat) (c : config) (m n u : Z).
Hypothesis Limit_given : max_process_number c = n.
Hypothesis Limit_is : n <> UNLIMITED.
Hypothesis User_given : uid c = u.
Hypothesis User_is : u <> keep_user.
(** What is known about the limit of each process. *)
Variable P : Z -> Prop.
Hypothesis P_given : P n.
Definition keeps (e : event) : Prop := forall p k, e = Lowers p k -> forall k0, P k0 -> k <= k0 -> P k.

(** What a process of the family is allowed, by stage. *)
Definition bound (q : nat) (r : process) : Prop :=
  r_conf r = c /\ (q <> x -> r_stage r = Prog) /\
  (r_stage r <> New -> exists k, r_limit r = Some k /\ P k) /\
  (r_stage r = Dropped \/ r_stage r = Prog -> r_user r = u) /\
  (r_stage r = Limited \/ r_stage r = Dropped -> r_limit r = Some n).
Definition bounded (fam : list nat) (w : machine) : Prop :=
  (forall q r, In q fam -> get w q = Some r -> bound q r) /\
  (fam = [x] \/ forall r, get w x = Some r -> r_stage r = Prog).

Lemma bounded_put : forall fam w p r r', bounded fam w -> get w p = Some r ->
  (bound p r -> bound p r') -> (r_stage r = Prog -> r_stage r' = Prog) ->
  bounded fam (put w p (Some r')).
Proof.
  intros fam w p r r' (B1 & B2) G E S'. pose proof (get_lt _ _ _ G) as L. split.
  - intros q s Q K. rewrite get_put in K by exact L. destruct (Nat.eqb_spec q p) as [->|N]; [|eauto].
    injection K as <-. eauto.
  - destruct B2 as [B2|B2]; [left; exact B2|]. right. intros s K.
    rewrite get_put in K by exact L. destruct (Nat.eqb_spec x p) as [->|N]; [|eauto].
    injection K as <-. eauto.
Qed.
Lemma bounded_gone : forall fam w p r, bounded fam w -> get w p = Some r -> bounded fam (put w p None).
Proof.
  intros fam w p r (B1 & B2) G. pose proof (get_lt _ _ _ G) as L. split.
  - intros q s Q K. rewrite get_put in K by exact L. destruct (Nat.eqb_spec q p) as [->|N]; [discriminate|eauto].
  - destruct B2 as [B2|B2]; [left; exact B2|]. right. intros s K.
    rewrite get_put in K by exact L. destruct (Nat.eqb_spec x p) as [->|N]; [discriminate|eauto].
Qed.
Lemma at_stage_is : forall s r, at_stage s r = true -> r_stage r = s /\ alive r = true.
Proof. intros s r H. unfold at_stage in H. apply andb_true_iff in H. destruct H as (H & K). destruct (r_stage r), s; auto; discriminate. Qed.
(** All processes of a family of more than one are the user's. *)
Lemma all_user : forall fam w p r, bounded fam w -> In p fam -> get w p = Some r -> r_stage r = Prog ->
  forall q s, In q fam -> get w q = Some s -> r_user s = u.
Proof.
  intros fam w p r (B1 & B2) Ip G S' q s Q K. destruct (B1 q s Q K) as (_ & _ & _ & U & _). apply U. right.
  destruct (Nat.eq_dec q x) as [->|N].
  - destruct B2 as [->|B2]; [|eauto]. destruct Ip as [<-|[]]. congruence.
  - destruct (B1 q s Q K) as (_ & D & _). auto.
Qed.

Lemma bounded_step : forall fam w e w', shape x fam w -> (x < List.length w)%nat -> bounded fam w -> keeps e ->
  step w e = Some w' -> bounded (grow fam e) w'.
Proof.
  intros fam w e w' H Lx B Ke T. apply step_stepped in T. pose proof (sh_after _ _ _ H Lx) as In_lt.
  destruct e; cbn [stepped grow] in *.
  - destruct T as (-> & _ & _ & _ & G). destruct B as (B1 & B2). split.
    + intros q r Q K. rewrite G in K. destruct (Nat.eqb_spec q (List.length w)) as [->|N]; [|eauto].
      specialize (In_lt _ Q). lia.
    + destruct B2 as [B2|B2]; [left; exact B2|]. right. intros r K. rewrite G in K.
      destruct (Nat.eqb_spec x (List.length w)); [lia|eauto].
  - destruct T as (r & G & S' & ->). apply at_stage_is in S'. destruct S' as (S' & _).
    eapply bounded_put; [exact B | exact G | | congruence].
    intros (C & D & K & U & V). split; [exact C|]. cbn [limited r_stage r_limit r_user]. split; [|split; [|split]].
    + intro N. specialize (D N). congruence.
    + intros _. rewrite C, Limit_given. destruct (Z.eqb_spec n UNLIMITED); [contradiction|]. exists n. split; [reflexivity|exact P_given].
    + intros [W|W]; discriminate.
    + intros _. rewrite C, Limit_given. destruct (Z.eqb_spec n UNLIMITED); [contradiction|reflexivity].
  - destruct T as (r & G & S' & _ & ->). apply at_stage_is in S'. destruct S' as (S' & _).
    eapply bounded_put; [exact B | exact G | | congruence].
    intros (C & D & K & U & V). split; [exact C|]. cbn [dropped r_stage r_limit r_user]. split; [|split; [|split]].
    + intro N. specialize (D N). congruence.
    + intros _. apply K. congruence.
    + intros _. rewrite C, User_given. destruct (keeps_reflect u); [contradiction|reflexivity].
    + intros _. apply V. left. exact S'.
  - destruct T as (r & G & S' & _ & ->). apply at_stage_is in S'. destruct S' as (S' & _).
    eapply bounded_put; [exact B | exact G | | reflexivity].
    intros (C & D & K & U & V). split; [exact C|]. cbn [executed r_stage r_limit r_user]. split; [|split; [|split]].
    + reflexivity.
    + intros _. apply K. congruence.
    + intros _. apply U. left. exact S'.
    + intros [W|W]; discriminate.
  - destruct T as (r & G & _ & _ & _ & ->). eapply bounded_put; [exact B | exact G | | auto]. intro K. exact K.
  - destruct T as (r & G & S' & -> & _ & _ & _ & K). apply at_stage_is in S'. destruct S' as (S' & _).
    destruct B as (B1 & B2). destruct (In_ p fam) eqn:F.
    + apply In__spec in F. pose proof (B1 p r F G) as (C & D & Li & U & V). split.
      * intros q s Q E. rewrite K in E. destruct (Nat.eqb_spec q (List.length w)) as [->|N].
        -- injection E as <-. split; [exact C|]. cbn [copy_of r_stage r_limit r_user]. split; [reflexivity|]. split; [|split].
           ++ intros _. apply Li. congruence.
           ++ intros _. apply U. right. exact S'.
           ++ intros [W|W]; discriminate.
        -- destruct Q as [Q|Q]; [congruence|]. eauto.
      * right. intros s E. rewrite K in E. destruct (Nat.eqb_spec x (List.length w)) as [X|N]; [lia|].
        destruct B2 as [->|B2]; [|eauto]. destruct F as [<-|[]]. congruence.
    + apply In__false in F. split.
      * intros q s Q E. rewrite K in E. destruct (Nat.eqb_spec q (List.length w)) as [->|N]; [|eauto].
        specialize (In_lt _ Q). lia.
      * destruct B2 as [B2|B2]; [left; exact B2|]. right. intros s E. rewrite K in E.
        destruct (Nat.eqb_spec x (List.length w)); [lia|eauto].
  - destruct T as (r & G & S' & Lo & ->). apply at_stage_is in S'. destruct S' as (S' & _).
    eapply bounded_put; [exact B | exact G | | auto].
    intros (C & D & K & U & V). split; [exact C|]. cbn [lowered r_stage r_limit r_user]. split; [exact D|]. split; [|split; [exact U|intros [W|W]; congruence]].
    intro N. destruct (K N) as (k & E & Le). rewrite E in Lo. unfold may_lower in Lo.
    apply andb_true_iff in Lo. destruct Lo as (_ & Lo). apply Z.leb_le in Lo. eexists. split; [reflexivity|]. exact (Ke p n0 eq_refl k Le Lo).
  - destruct T as (r & G & _ & _ & ->). eapply bounded_put; [exact B | exact G | | auto]. intro K. exact K.
  - destruct T as (r & G & _ & _ & ->). eapply bounded_put; [exact B | exact G | | auto]. intro K. exact K.
  - destruct T as (r & G & _ & _ & _ & K). destruct B as (B1 & B2).
    assert (A : forall q s, get w' q = Some s -> exists t, get w q = Some t /\ r_conf s = r_conf t /\
      r_stage s = r_stage t /\ r_limit s = r_limit t /\ r_user s = r_user t).
    { intros q s E. rewrite K in E. destruct (Nat.eqb_spec q p) as [->|N].
      - injection E as <-. exists r. repeat split; assumption.
      - destruct (get w q) as [t|]; [|discriminate]. exists t. split; [reflexivity|]. cbn in E.
        destruct (r_parent t) as [|p'|]; [|destruct (Nat.eqb p' p)|]; injection E as <-; repeat split; reflexivity. }
    split.
    + intros q s Q E. destruct (A q s E) as (t & Gt & C1 & C2 & C3 & C4).
      destruct (B1 q t Q Gt) as (D1 & D2 & D3 & D4 & D5). unfold bound. rewrite C1, C2, C3, C4. auto.
    + destruct B2 as [B2|B2]; [left; exact B2|]. right. intros s E.
      destruct (A x s E) as (t & Gt & C1 & C2 & C3 & C4). rewrite C2. eauto.
  - destruct T as (r & s & G & Gs & N & Pa & _ & _ & _ & -> & _).
    eapply bounded_put; [eapply bounded_gone; eauto | rewrite get_put_other by congruence; exact G | | auto].
    intro K. exact K.
  - destruct T as (s & p & G & _ & _ & ->). eapply bounded_gone; eauto.
  - destruct T as (s & G & _ & _ & ->). eapply bounded_gone; eauto.
  - destruct T as (s & G & _ & _ & ->). eapply bounded_gone; eauto.
Qed.

Hypothesis User_not_root : u <> 0.
Hypothesis P_most : forall k, P k -> k <= n.

Lemma size_step : forall fam w e w', shape x fam w -> (x < List.length w)%nat -> bounded fam w ->
  step w e = Some w' -> size fam w <= n -> size (grow fam e) w' <= n.
Proof.
  intros fam w e w' H Lx B T Le. apply step_stepped in T. pose proof (sh_after _ _ _ H Lx) as In_lt.
  assert (Keep : (forall p, In p fam -> exists_in w' p = true -> exists_in w p = true) -> size fam w' <= n).
  { intro K. pose proof (size_mono _ _ _ K). lia. }
  destruct e; cbn [stepped grow] in *;
    try (apply Keep; intros k _; destruct T as (r & G & T);
         repeat match goal with K : _ /\ _ |- _ => destruct K end; subst w'; eapply exists_put; exact G).
  - apply Keep. destruct T as (-> & _ & _ & _ & G). intros k K. unfold exists_in. rewrite G.
    specialize (In_lt _ K). destruct (Nat.eqb_spec k (List.length w)); [lia|auto].
  - destruct T as (r & G & S' & -> & Al & _ & _ & K). apply at_stage_is in S'. destruct S' as (S' & _).
    destruct (In_ p fam) eqn:F.
    + apply In__spec in F.
      assert (E : size (List.length w :: fam) w' = 1 + size fam w).
      { unfold size. cbn [filter]. unfold exists_in at 1. rewrite K, Nat.eqb_refl. cbn [List.length].
        rewrite Nat2Z.inj_succ. rewrite (filter_ext_in (exists_in w') (exists_in w)); [lia|].
        intros k Q. unfold exists_in. rewrite K. specialize (In_lt _ Q).
        destruct (Nat.eqb_spec k (List.length w)); [lia|reflexivity]. }
      rewrite E. clear E.
      pose proof (all_user _ _ _ _ B F G S') as U.
      pose proof (size_le_count fam w u (sh_nodup _ _ _ H) U) as Z1.
      destruct (proj1 B p r F G) as (_ & _ & Li & _). destruct (Li ltac:(congruence)) as (k & E & Lk). apply P_most in Lk.
      unfold fork_allowed in Al. rewrite (U p r F G) in Al.
      destruct (Z.eqb_spec u 0) as [|_]; [contradiction|]. cbn [orb] in Al. rewrite E in Al.
      apply negb_true_iff in Al. cbn [above] in Al. apply Z.ltb_ge in Al. lia.
    + apply Keep. intros k Q. unfold exists_in. rewrite K. specialize (In_lt _ Q).
      destruct (Nat.eqb_spec k (List.length w)); [lia|auto].
  - apply Keep. destruct T as (r & G & _ & _ & _ & K). intros k _. unfold exists_in. rewrite K.
    destruct (Nat.eqb_spec k p) as [->|N]; [rewrite G; reflexivity|]. destruct (get w k); auto.
  - apply Keep. destruct T as (r & s & G & Gs & N & Pa & _ & _ & _ & _ & K). intros k _. unfold exists_in. rewrite K.
    destruct (Nat.eqb_spec k p) as [->|M]; [rewrite G; reflexivity|].
    destruct (Nat.eqb_spec k q) as [->|M']; [discriminate|auto].
  - apply Keep. destruct T as (s & p & G & _ & _ & ->). intros k _. eapply exists_put; exact G.
Qed.
End Limit.

Lemma bounded_start : forall x c m n u P fam w w', shape x fam w -> step w (Starts x c m) = Some w' ->
  max_process_number c = n -> n <> UNLIMITED -> uid c = u -> u <> keep_user ->
  bounded x c n u P fam w' /\ fam = [x] /\ size fam w' <= 1 /\ 1 <= n.
Proof.
  intros x c m n u P fam w w' H T En Nn Eu Nu. apply step_stepped in T. cbn in T.
  destruct T as (-> & V & _ & _ & G). pose proof (sh_before _ _ _ H (Nat.le_refl _)) as ->. repeat split.
  - destruct H0 as [<-|[]]. rewrite G, Nat.eqb_refl in H1. injection H1 as <-. reflexivity.
  - intro N. destruct H0 as [<-|[]]. congruence.
  - destruct H0 as [<-|[]]. rewrite G, Nat.eqb_refl in H1. injection H1 as <-. cbn. intro N. congruence.
  - destruct H0 as [<-|[]]. rewrite G, Nat.eqb_refl in H1. injection H1 as <-. cbn. intros [N|N]; discriminate.
  - destruct H0 as [<-|[]]. rewrite G, Nat.eqb_refl in H1. injection H1 as <-. cbn. intros [N|N]; discriminate.
  - left. reflexivity.
  - unfold size. cbn [filter]. destruct (exists_in w' (List.length w)); cbn; lia.
  - unfold config_invalid in V. rewrite !orb_false_iff in V. destruct V as ((_ & V) & _).
    rewrite En in V. destruct (Z.ltb_spec n 1) as [L|L]; [|exact L].
    destruct (Z.eqb_spec n UNLIMITED); [contradiction|discriminate V].
Qed.

Lemma process_limit_inv : forall (P : Z -> Prop) x c m n u, P n -> (forall k, P k -> k <= n) ->
  max_process_number c = n -> n <> UNLIMITED -> uid c = u -> u <> keep_user ->
  forall evs w, (forall e, In e evs -> keeps P e) ->
  history [] evs = Some w -> In (Starts x c m) evs ->
  bounded x c n u P (family x evs) w /\ (u <> 0 -> size (family x evs) w <= n).
Proof.
  intros P x c m n u Pn Pm En Nn Eu Nu evs.
  induction evs as [|e evs IH] using rev_ind; intros w Ke H I; [destruct I|].
  apply history_snoc in H. destruct H as (v & V & T). rewrite family_snoc.
  pose proof (shape_history x evs v V) as Sh.
  assert (Ke' : keeps P e) by (apply Ke, in_or_app; right; left; reflexivity).
  assert (Ks : forall e, In e evs -> keeps P e) by (intros a A; apply Ke, in_or_app; left; exact A).
  apply in_app_or in I. destruct I as [I|[->|[]]].
  - destruct (IH _ Ks V I) as (B & Z1). destruct (started _ _ _ _ _ V I) as (L & _). split.
    + eapply bounded_step; eauto.
    + intro Ru. eapply size_step; eauto.
  - destruct (bounded_start x c m n u P _ v w Sh T En Nn Eu Nu) as (B & F & Z1 & N1). cbn [grow]. split; [exact B|].
    intros _. lia.
Qed.

Lemma process_limit : forall evs w x c m, history [] evs = Some w -> In (Starts x c m) evs ->
  max_process_number c <> UNLIMITED -> uid c <> keep_user -> uid c <> 0 ->
  size (family x evs) w <= max_process_number c.
Proof.
  intros evs w x c m H I Nn Nu N0.
  destruct (process_limit_inv (fun k => k <= max_process_number c) x c m _ _ (Z.le_refl _) (fun k K => K) eq_refl Nn eq_refl Nu evs w) as (_ & L); auto.
  intros e _ p k _ k0 K0 Le. lia.
Qed.

(** ** A user of its own *)
Lemma alone_fork : forall evs w x c m p r call, history [] evs = Some w -> In (Starts x c m) evs ->
  max_process_number c <> UNLIMITED -> uid c <> keep_user -> uid c <> 0 ->
  (forall q k, ~ In (Lowers q k) evs) -> exclusive (uid c) (family x evs) w ->
  In p (family x evs) -> get w p = Some r -> at_stage Prog r = true -> fork_call c call = true ->
  ((exists w', step w (Forks p (List.length w) call) = Some w') <-> size (family x evs) w < max_process_number c).
Proof.
  intros evs w x c m p r call H I Nn Nu N0 NL X Ip G Sp Fc.
  destruct (process_limit_inv (fun k => k = max_process_number c) x c m _ _ eq_refl
    (fun k K => Z.eq_le_incl _ _ K) eq_refl Nn eq_refl Nu evs w) as (B & _); auto.
  { intros e Ie q k -> . exfalso. exact (NL q k Ie). }
  pose proof (at_stage_is _ _ Sp) as (Sr & _).
  pose proof (all_user x c _ (uid c) _ _ _ _ _ B Ip G Sr) as U.
  pose proof (size_le_count _ w (uid c) (sh_nodup _ _ _ (shape_history x evs w H)) U) as Z1.
  pose proof (count_le_size _ _ _ X) as Z2.
  destruct (proj1 B p r Ip G) as (_ & _ & Li & _). destruct (Li ltac:(congruence)) as (k & E & ->).
  destruct (proj1 B p r Ip G) as (Ec & _). cbn [step]. rewrite G, Sp, Nat.eqb_refl, Ec, Fc. cbn [andb]. unfold fork_allowed. rewrite (U p r Ip G), E.
  destruct (Z.eqb_spec (uid c) 0) as [|_]; [contradiction|]. cbn [orb above].
  destruct (Z.ltb_spec (max_process_number c) (count (uid c) w + 1)) as [L|L]; cbn [negb guard]; split.
  - intros (w' & D). discriminate.
  - lia.
  - lia.
  - intros _. eexists. reflexivity.
Qed.
Lemma alone_exec : forall evs w x c m r, history [] evs = Some w -> In (Starts x c m) evs ->
  max_process_number c <> UNLIMITED -> uid c <> keep_user ->
  exclusive (uid c) (family x evs) w -> get w x = Some r -> at_stage Dropped r = true ->
  (exists w', step w (Execs x) = Some w') /\ forall status, step w (Refused x status) = None.
Proof.
  intros evs w x c m r H I Nn Nu X G Sp.
  destruct (process_limit_inv (fun k => k <= max_process_number c) x c m _ _ (Z.le_refl _) (fun k K => K) eq_refl Nn eq_refl Nu evs w) as (B & _); auto.
  { intros e _ p k _ k0 K0 Le. lia. }
  pose proof (at_stage_is _ _ Sp) as (Sr & _).
  pose proof (count_le_size _ _ _ X) as Z2.
  pose proof (sh_self _ _ _ (shape_history x evs w H)) as Ix.
  destruct (proj1 B x r Ix G) as (_ & _ & _ & U & Li). rewrite Sr in U, Li.
  assert (F : family x evs = [x]).
  { destruct (proj2 B) as [F|F]; [exact F|]. specialize (F r G). congruence. }
  assert (S1 : size (family x evs) w <= 1).
  { rewrite F. unfold size. cbn [filter]. destruct (exists_in w x); cbn; lia. }
  assert (N1 : 1 <= max_process_number c).
  { destruct (started _ _ _ _ _ H I) as (_ & V). unfold config_invalid in V. rewrite !orb_false_iff in V.
    destruct V as ((_ & V) & _). destruct (Z.ltb_spec (max_process_number c) 1) as [L|L]; [|exact L].
    destruct (Z.eqb_spec (max_process_number c) UNLIMITED); [contradiction|discriminate V]. }
  assert (R : exec_refused r w = false).
  { unfold exec_refused. rewrite (U (or_introl eq_refl)), (Li (or_intror eq_refl)). cbn [above].
    destruct (Z.ltb_spec (max_process_number c) (count (uid c) w)); [lia|]. apply andb_false_r. }
  split.
  - cbn [step]. rewrite G, Sp, R. cbn. eexists. reflexivity.
  - intro status. cbn [step]. rewrite G, Sp, R. reflexivity.
Qed.
