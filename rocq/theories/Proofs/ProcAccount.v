(** C87: what wait4 reports about a family of processes. *)
From Coq Require Import ZArith Bool List Arith Lia.
From Verif.Base Require Import CInt CStr.
From Verif.Model Require Import Config Runner Processes.
From Verif.Spec Require Import ProcSpec.
From Verif.Proofs Require Import ProcBase ProcLimit.
Import ListNotations.
Open Scope Z_scope.

Definition tot (r : process) : Z := r_utime r + r_cutime r.
Definition totO (o : option process) : Z := match o with Some r => tot r | None => 0 end.
Fixpoint sumf (w : machine) (fam : list nat) : Z :=
  match fam with [] => 0 | p :: fam => totO (get w p) + sumf w fam end.

Lemma sumf_ext : forall w w' fam, (forall p, In p fam -> totO (get w' p) = totO (get w p)) -> sumf w' fam = sumf w fam.
Proof.
  intros w w' fam. induction fam as [|p fam IH]; intro H; [reflexivity|]. cbn [sumf].
  rewrite (H p (or_introl eq_refl)), IH; [reflexivity|]. intros q Q. apply H. right. exact Q.
Qed.
Lemma sumf_put : forall w p o fam, (p < List.length w)%nat -> NoDup fam ->
  sumf (put w p o) fam = sumf w fam + if In_ p fam then totO o - totO (get w p) else 0.
Proof.
  intros w p o fam L N. induction fam as [|q fam IH]; [cbn; lia|]. inversion N as [|a l Nq N']; subst.
  specialize (IH N'). cbn [sumf]. rewrite get_put by exact L.
  change (In_ p (q :: fam)) with (Nat.eqb p q || In_ p fam). rewrite (Nat.eqb_sym p q).
  destruct (Nat.eqb_spec q p) as [->|M].
  - apply In__false in Nq. rewrite Nq in IH. cbn [orb]. lia.
  - cbn [orb]. lia.
Qed.

Definition times_ok (w : machine) : Prop := forall p r, get w p = Some r ->
  0 <= r_utime r /\ 0 <= r_cutime r.
Lemma times_put : forall w p o, times_ok w -> (p < List.length w)%nat ->
  (forall r, o = Some r -> 0 <= r_utime r /\ 0 <= r_cutime r) -> times_ok (put w p o).
Proof.
  intros w p o H L O q r G. rewrite get_put in G by exact L. destruct (Nat.eqb q p); [auto | eauto].
Qed.
Lemma times_step : forall w e w', times_ok w -> step w e = Some w' -> times_ok w'.
Proof.
  intros w e w' H T. apply step_stepped in T.
  destruct e; cbn [stepped] in T;
    try (destruct T as (r & G & T); pose proof (H _ _ G);
         repeat match goal with K : _ /\ _ |- _ => destruct K end; subst w';
         apply times_put; [exact H | eapply get_lt; exact G | intros s E; injection E as <-; cbn; lia]).
  - destruct T as (-> & _ & _ & _ & G). intros q r K. rewrite G in K.
    destruct (Nat.eqb q (List.length w)); [injection K as <-; cbn; lia | eauto].
  - destruct T as (r & G & _ & -> & _ & _ & _ & K). intros q s E. rewrite K in E.
    destruct (Nat.eqb q (List.length w)); [injection E as <-; cbn; lia | eauto].
  - destruct T as (r & G & _ & _ & _ & K). intros q s E. rewrite K in E.
    destruct (Nat.eqb_spec q p) as [->|N]; [injection E as <-; exact (H _ _ G)|].
    destruct (get w q) as [t|] eqn:Gt; [|discriminate]. specialize (H _ _ Gt). cbn in E.
    destruct (r_parent t) as [|p'|]; [|destruct (Nat.eqb p' p)|]; injection E as <-; exact H.
  - destruct T as (r & s & G & Gs & N & P & _ & _ & _ & _ & K). intros k t E. rewrite K in E.
    pose proof (H _ _ G). pose proof (H _ _ Gs).
    destruct (Nat.eqb k p); [injection E as <-; cbn; lia|]. destruct (Nat.eqb k q); [discriminate|eauto].
  - destruct T as (s & p & G & _ & _ & ->). apply times_put; [exact H | eapply get_lt; exact G | discriminate].
  - destruct T as (s & G & _ & _ & ->). apply times_put; [exact H | eapply get_lt; exact G | discriminate].
  - destruct T as (s & G & _ & _ & ->). apply times_put; [exact H | eapply get_lt; exact G | discriminate].
Qed.
Lemma times_history : forall evs w, history [] evs = Some w -> times_ok w.
Proof.
  intros evs. induction evs as [|e evs IH] using rev_ind; intros w H.
  - injection H as <-. intros [|p] r; discriminate.
  - apply history_snoc in H. destruct H as (v & V & T). eapply times_step; eauto.
Qed.

Definition inc (fam : list nat) (e : event) : Z :=
  match e with Runs p t => if In_ p fam then t else 0 | _ => 0 end.

(** One step: nothing is invented, and nothing is lost if nobody is let go. *)
Lemma sum_step : forall x fam w e w', shape x fam w -> times_ok w -> step w e = Some w' ->
  sumf w' (grow fam e) <= sumf w fam + inc fam e /\
  (lets_go fam e = false -> get w' x <> None -> sumf w' (grow fam e) = sumf w fam + inc fam e).
Proof.
  intros x fam w e w' H TT T. apply step_stepped in T. pose proof (sh_nodup _ _ _ H) as ND.
  assert (Eq : sumf w' (grow fam e) = sumf w fam + inc fam e ->
    sumf w' (grow fam e) <= sumf w fam + inc fam e /\
    (lets_go fam e = false -> get w' x <> None -> sumf w' (grow fam e) = sumf w fam + inc fam e)).
  { intro E. split; [lia | intros _ _; exact E]. }
  destruct e; cbn [stepped grow inc] in *;
    try (apply Eq; destruct T as (r & G & T);
         repeat match goal with K : _ /\ _ |- _ => destruct K end; subst w';
         rewrite sumf_put by (eauto using get_lt); rewrite G; cbn; destruct (In_ p fam); unfold tot; cbn; lia).
  - apply Eq. destruct T as (-> & _ & _ & _ & G). rewrite Z.add_0_r. apply sumf_ext. intros q _. rewrite G.
    destruct (Nat.eqb_spec q (List.length w)) as [->|N]; [|reflexivity].
    rewrite (get_none_ge w (List.length w)) by lia. reflexivity.
  - apply Eq. destruct T as (r & G & _ & -> & _ & _ & _ & K). rewrite Z.add_0_r.
    assert (E : sumf w' fam = sumf w fam).
    { apply sumf_ext. intros k _. rewrite K. destruct (Nat.eqb_spec k (List.length w)) as [->|N]; [|reflexivity].
      rewrite (get_none_ge w (List.length w)) by lia. reflexivity. }
    destruct (In_ p fam); [|exact E]. cbn [sumf]. rewrite K, Nat.eqb_refl, E. reflexivity.
  - apply Eq. destruct T as (r & G & _ & _ & _ & K). rewrite Z.add_0_r. apply sumf_ext. intros q _. rewrite K.
    destruct (Nat.eqb_spec q p) as [->|N]; [rewrite G; reflexivity|].
    destruct (get w q) as [t|]; [|reflexivity]. cbn. destruct (r_parent t) as [|p'|]; try reflexivity.
    destruct (Nat.eqb p' p); reflexivity.
  - destruct T as (r & s & G & Gs & N & P & _ & _ & _ & -> & K). cbn [lets_go].
    assert (E : sumf (put (put w q None) p (Some (waited s r))) fam =
      sumf w fam - (if In_ q fam then tot s else 0) + (if In_ p fam then tot s else 0)).
    { rewrite sumf_put by (rewrite ?put_length; eauto using get_lt).
      rewrite get_put_other by congruence. rewrite sumf_put by eauto using get_lt. rewrite G, Gs.
      unfold totO, tot. cbn [waited r_utime r_cutime]. destruct (In_ p fam), (In_ q fam); lia. }
    pose proof (TT _ _ Gs) as (T1 & T2).
    assert (C : In_ p fam = true -> In_ q fam = true).
    { rewrite !In__spec. apply (sh_child _ _ _ H q s p Gs P). }
    rewrite E. split.
    + unfold tot. destruct (In_ p fam), (In_ q fam); try lia.
    + intros _ X. rewrite K in X. destruct (In_ q fam) eqn:Iq.
      * apply In__spec in Iq. destruct (Nat.eq_dec q x) as [->|M].
        -- exfalso. apply X. rewrite Nat.eqb_refl. destruct (Nat.eqb_spec x p); [congruence|reflexivity].
        -- destruct (sh_inside _ _ _ H q s Gs Iq M) as [D|(k & D & Ik)]; [congruence|].
           rewrite P in D. injection D as <-. apply In__spec in Ik. rewrite Ik. lia.
      * destruct (In_ p fam); [discriminate (C eq_refl)|lia].
  - destruct T as (s & p & G & _ & _ & ->). rewrite sumf_put by eauto using get_lt. rewrite G.
    pose proof (TT _ _ G) as (T1 & T2). cbn [lets_go]. unfold totO, tot. destruct (In_ q fam); split; intros; try lia.
  - destruct T as (s & G & _ & _ & ->). rewrite sumf_put by eauto using get_lt. rewrite G.
    pose proof (TT _ _ G) as (T1 & T2). cbn [lets_go]. unfold totO, tot. destruct (In_ q fam); split; intros; try lia.
  - destruct T as (s & G & P & _ & ->). rewrite sumf_put by eauto using get_lt. rewrite G.
    pose proof (TT _ _ G) as (T1 & T2). cbn [lets_go]. unfold totO, tot.
    destruct (In_ x0 fam) eqn:Iq; split; intros; try lia.
    apply In__spec in Iq. destruct (Nat.eq_dec x0 x) as [->|M].
    + exfalso. rewrite get_put_same in * by eauto using get_lt. congruence.
    + destruct (sh_inside _ _ _ H _ s G Iq M) as [D|(k & D & Ik)]; congruence.
Qed.

(** Before x exists, its family has done nothing. *)
Lemma spent_before : forall x evs w, history [] evs = Some w -> (List.length w <= x)%nat ->
  spent [x] evs = 0 /\ largest [x] evs = 0.
Proof.
  intros x evs. induction evs as [|e evs IH] using rev_ind; intros w H L; [split; reflexivity|].
  apply history_snoc in H. destruct H as (v & V & T). pose proof (shape_history x evs v V) as Sh.
  apply step_stepped in T. rewrite spent_snoc, largest_snoc.
  assert (Lv : (List.length v <= List.length w)%nat).
  { destruct e; cbn [stepped] in T;
      repeat match goal with K : exists _, _ |- _ => destruct K
                           | K : _ /\ _ |- _ => destruct K end; subst;
      rewrite ?put_length, ?app_length, ?map_length; lia. }
  destruct (IH v V ltac:(lia)) as (-> & ->). change (fold_left grow evs [x]) with (family x evs).
  rewrite (sh_before _ _ _ Sh) by lia.
  assert (A : forall p, (p < List.length w)%nat -> In_ p [x] = false).
  { intros p P. apply In__false. intros [E|[]]. lia. }
  destruct e; cbn [stepped] in T; try (split; reflexivity).
  - destruct T as (-> & _ & _ & Lw & _). rewrite A by lia. split; reflexivity.
  - destruct T as (r & G & _ & _ & ->). apply get_lt in G. rewrite A by (rewrite put_length; exact G). split; reflexivity.
  - destruct T as (r & G & _ & _ & ->). apply get_lt in G. rewrite A by (rewrite put_length; exact G). split; reflexivity.
Qed.

Lemma family_grows : forall e fam q, In q fam -> In q (grow fam e).
Proof. intros e fam q Q. destruct e; cbn; auto. destruct (In_ p fam); [right; exact Q | exact Q]. Qed.
Lemma lets_go_less : forall e f fam, lets_go (grow fam f) e = false -> lets_go fam e = false.
Proof.
  intros e f fam H. destruct e; cbn in *; try reflexivity; rewrite In__false in *; intro Q; apply H, family_grows, Q.
Qed.
(** The step that makes x. *)
Lemma made : forall x w e w' r, step w e = Some w' -> get w x = None -> get w' x = Some r ->
  (List.length w <= x)%nat /\ tot r = 0.
Proof.
  intros x w e w' r T N G. apply step_stepped in T.
  assert (Put : forall p r' o, get w p = Some r' -> get (put w p o) x = Some r -> (List.length w <= x)%nat /\ tot r = 0).
  { intros p r' o Gp Gx. rewrite get_put in Gx by eauto using get_lt.
    destruct (Nat.eqb_spec x p) as [->|M]; congruence. }
  destruct e; cbn [stepped] in T;
    try (destruct T as (r' & G' & T); repeat match goal with K : _ /\ _ |- _ => destruct K end; subst w';
         eapply Put; eassumption).
  - destruct T as (-> & _ & _ & _ & K). rewrite K in G. destruct (Nat.eqb_spec x (List.length w)) as [->|M]; [|congruence].
    injection G as <-. split; [lia|reflexivity].
  - destruct T as (r' & G' & _ & -> & _ & _ & _ & K). rewrite K in G.
    destruct (Nat.eqb_spec x (List.length w)) as [->|M]; [|congruence]. injection G as <-. split; [lia|reflexivity].
  - destruct T as (r' & G' & _ & _ & _ & K). rewrite K in G.
    destruct (Nat.eqb_spec x p) as [->|M]; [congruence|]. rewrite N in G. discriminate.
  - destruct T as (r' & s & G' & Gs & _ & _ & _ & _ & _ & _ & K). rewrite K in G.
    destruct (Nat.eqb_spec x p) as [->|M]; [congruence|]. destruct (Nat.eqb x q); congruence.
Qed.

Lemma sum_history : forall x evs w, history [] evs = Some w ->
  sumf w (family x evs) <= spent [x] evs /\
  ((forall e, In e evs -> lets_go (family x evs) e = false) -> get w x <> None ->
   sumf w (family x evs) = spent [x] evs).
Proof.
  intros x evs. induction evs as [|e evs IH] using rev_ind; intros w H.
  - injection H as <-. cbn. unfold get. rewrite (proj2 (nth_error_None [] x)) by (cbn; lia). cbn. split; [lia|reflexivity].
  - apply history_snoc in H. destruct H as (v & V & T). rewrite family_snoc, spent_snoc.
    pose proof (shape_history x evs v V) as Sh. change (fold_left grow evs [x]) with (family x evs).
    destruct (IH v V) as (I1 & I2).
    destruct (sum_step x _ v e w Sh (times_history _ _ V) T) as (S1 & S2).
    change (match e with Runs p t => if In_ p (family x evs) then t else 0 | _ => 0 end) with (inc (family x evs) e).
    split; [lia|]. intros LG X.
    assert (LG1 : forall a, In a evs -> lets_go (family x evs) a = false).
    { intros a A. apply (lets_go_less a e). apply LG. apply in_or_app. left. exact A. }
    assert (LG2 : lets_go (family x evs) e = false).
    { apply (lets_go_less e e). apply LG. apply in_or_app. right. left. reflexivity. }
    rewrite (S2 LG2 X). f_equal.
    destruct (get v x) as [r|] eqn:G.
    + apply I2; [exact LG1|discriminate].
    + destruct (get w x) as [r|] eqn:Gw; [|congruence].
      destruct (made x v e w r T G Gw) as (L & _).
      destruct (spent_before x evs v V L) as (-> & _). rewrite (sh_before _ _ _ Sh L). cbn. rewrite G. reflexivity.
Qed.

Lemma sumf_nonneg : forall w fam, times_ok w -> 0 <= sumf w fam.
Proof.
  intros w fam H. induction fam as [|p fam IH]; [cbn; lia|]. cbn [sumf].
  destruct (get w p) as [r|] eqn:G; [|cbn; lia]. specialize (H _ _ G). unfold totO, tot. lia.
Qed.
Lemma sumf_member : forall w fam p r, times_ok w -> In p fam -> get w p = Some r -> tot r <= sumf w fam.
Proof.
  intros w fam p r H. induction fam as [|q fam IH]; intros I G; [destruct I|]. cbn [sumf].
  destruct I as [->|I].
  - rewrite G. pose proof (sumf_nonneg w fam H). cbn [totO]. lia.
  - specialize (IH I G). destruct (get w q) as [s|] eqn:Gq; [|cbn; lia]. specialize (H _ _ Gq). unfold totO, tot in *. lia.
Qed.
Lemma sumf_only : forall w fam x r, NoDup fam -> In x fam -> get w x = Some r ->
  (forall q, In q fam -> q <> x -> get w q = None) -> sumf w fam = tot r.
Proof.
  intros w fam x r N I G O. induction fam as [|q fam IH]; [destruct I|]. inversion N as [|a l Nq N']; subst. cbn [sumf].
  destruct (Nat.eq_dec q x) as [->|M].
  - rewrite G. cbn [totO]. replace (sumf w fam) with 0; [lia|]. symmetry.
    assert (Z0 : forall q, In q fam -> get w q = None).
    { intros q Q. apply O; [right; exact Q|]. intros ->. contradiction. }
    clear - Z0. induction fam as [|q fam IH]; [reflexivity|]. cbn [sumf]. rewrite (Z0 q (or_introl eq_refl)), IH; [reflexivity|].
    intros p P. apply Z0. right. exact P.
  - destruct I as [->|I]; [congruence|]. rewrite (O q (or_introl eq_refl) M). cbn [totO].
    apply IH; auto. intros p P. apply O. right. exact P.
Qed.

Lemma time_at_most : forall evs w x r, history [] evs = Some w -> get w x = Some r -> 0 <= tot r <= spent [x] evs.
Proof.
  intros evs w x r H G. pose proof (times_history _ _ H) as TT. split.
  - specialize (TT _ _ G). unfold tot. lia.
  - pose proof (sumf_member w (family x evs) x r TT (sh_self _ _ _ (shape_history x evs w H)) G).
    destruct (sum_history x evs w H) as (L & _). lia.
Qed.
Lemma time_exact : forall evs w x r, history [] evs = Some w -> get w x = Some r -> all_waited_for x evs w ->
  tot r = spent [x] evs.
Proof.
  intros evs w x r H G (LG & O). pose proof (shape_history x evs w H) as Sh.
  destruct (sum_history x evs w H) as (_ & E). rewrite <- E; [|exact LG | congruence].
  symmetry. apply sumf_only with (x := x); auto; apply Sh.
Qed.

(** ** Memory *)
Definition mem (r : process) : Z := Z.max (r_peak r) (r_cpeak r).
Definition mem_bound (b : Z) (r : process) : Prop := 0 <= r_mem r <= r_peak r /\ r_peak r <= b /\ 0 <= r_cpeak r <= b.
Definition mem_incr (fam : list nat) (e : event) : Z :=
  match e with Starts p _ m | Holds p m => if In_ p fam then m else 0 | _ => 0 end.

Lemma mem_put : forall fam w p r r' b b', (forall q s, In q fam -> get w q = Some s -> mem_bound b s) -> b <= b' ->
  get w p = Some r -> (In p fam -> mem_bound b r -> mem_bound b' r') ->
  forall q s, In q fam -> get (put w p (Some r')) q = Some s -> mem_bound b' s.
Proof.
  intros fam w p r r' b b' H L G K q s Q E. rewrite get_put in E by eauto using get_lt.
  destruct (Nat.eqb_spec q p) as [->|N].
  - injection E as <-. eauto.
  - specialize (H q s Q E). unfold mem_bound in *. lia.
Qed.
Lemma mem_gone : forall fam w p r b b', (forall q s, In q fam -> get w q = Some s -> mem_bound b s) -> b <= b' ->
  get w p = Some r -> forall q s, In q fam -> get (put w p None) q = Some s -> mem_bound b' s.
Proof.
  intros fam w p r b b' H L G q s Q E. rewrite get_put in E by eauto using get_lt.
  destruct (Nat.eqb q p); [discriminate|]. specialize (H q s Q E). unfold mem_bound in *. lia.
Qed.
Lemma mem_step : forall x fam w e w' b, shape x fam w -> (x < List.length w)%nat -> 0 <= b ->
  (forall q s, In q fam -> get w q = Some s -> mem_bound b s) -> step w e = Some w' ->
  forall q s, In q (grow fam e) -> get w' q = Some s -> mem_bound (Z.max b (mem_incr fam e)) s.
Proof.
  intros x fam w e w' b H Lx Nb B T. apply step_stepped in T. pose proof (sh_after _ _ _ H Lx) as In_lt.
  destruct e; cbn [stepped grow mem_incr] in *;
    try (destruct T as (r & G & T); repeat match goal with K : _ /\ _ |- _ => destruct K end; subst w';
         eapply mem_put; [exact B | lia | exact G | intros Ip; unfold mem_bound; cbn; try (apply In__spec in Ip; rewrite Ip); lia]).
  - destruct T as (-> & _ & _ & _ & K). intros q s Q E. rewrite K in E.
    destruct (Nat.eqb_spec q (List.length w)) as [->|N]; [specialize (In_lt _ Q); lia|].
    specialize (B q s Q E). unfold mem_bound in *. lia.
  - destruct T as (r & G & _ & -> & _ & _ & _ & K). intros k s Q E. rewrite K in E.
    destruct (In_ p fam) eqn:F.
    + apply In__spec in F. destruct (Nat.eqb_spec k (List.length w)) as [->|N].
      * injection E as <-. specialize (B p r F G). unfold mem_bound in *. cbn. lia.
      * destruct Q as [Q|Q]; [congruence|]. specialize (B k s Q E). unfold mem_bound in *. lia.
    + destruct (Nat.eqb_spec k (List.length w)) as [->|N]; [specialize (In_lt _ Q); lia|].
      specialize (B k s Q E). unfold mem_bound in *. lia.
  - destruct T as (r & G & _ & _ & _ & K). intros q s Q E. rewrite K in E.
    destruct (Nat.eqb_spec q p) as [->|N].
    + injection E as <-. specialize (B p r Q G). unfold mem_bound in *. cbn. lia.
    + destruct (get w q) as [t|] eqn:Gt; [|discriminate]. specialize (B q t Q Gt). cbn in E.
      unfold mem_bound in *. destruct (r_parent t) as [|p'|]; [|destruct (Nat.eqb p' p)|]; injection E as <-; cbn; lia.
  - destruct T as (r & s & G & Gs & N & P & _ & _ & _ & -> & K). intros k t Q E. rewrite K in E.
    destruct (Nat.eqb_spec k p) as [->|M].
    + injection E as <-. pose proof (sh_child _ _ _ H q s p Gs P Q) as Iq.
      pose proof (B _ _ Q G). pose proof (B _ _ Iq Gs). unfold mem_bound in *. cbn. lia.
    + destruct (Nat.eqb k q); [discriminate|]. specialize (B k t Q E). unfold mem_bound in *. lia.
  - destruct T as (s & p & G & _ & _ & ->). eapply mem_gone; [exact B | lia | exact G].
  - destruct T as (s & G & _ & _ & ->). eapply mem_gone; [exact B | lia | exact G].
  - destruct T as (s & G & _ & _ & ->). eapply mem_gone; [exact B | lia | exact G].
Qed.
Lemma mem_history : forall x c m evs w, history [] evs = Some w -> In (Starts x c m) evs ->
  forall q s, In q (family x evs) -> get w q = Some s -> mem_bound (largest [x] evs) s.
Proof.
  intros x c m evs. induction evs as [|e evs IH] using rev_ind; intros w H I; [destruct I|].
  apply history_snoc in H. destruct H as (v & V & T). rewrite family_snoc, largest_snoc.
  pose proof (shape_history x evs v V) as Sh. change (fold_left grow evs [x]) with (family x evs).
  apply in_app_or in I. destruct I as [I|[->|[]]].
  - destruct (started _ _ _ _ _ V I) as (L & _).
    exact (mem_step x _ v e w (largest [x] evs) Sh L (largest_nonneg _ _) (IH v V I) T).
  - apply step_stepped in T. destruct T as (-> & _ & Nm & _ & K). cbn [grow].
    rewrite (sh_before _ _ _ Sh) by lia. destruct (spent_before (List.length v) evs v V (Nat.le_refl _)) as (_ & ->).
    intros q s [<-|[]] E. rewrite K, Nat.eqb_refl in E. injection E as <-.
    assert (A : In_ (List.length v) [List.length v] = true) by (apply In__spec; left; reflexivity).
    rewrite A. unfold mem_bound. cbn. lia.
Qed.

(** Somebody has the record of the largest, unless somebody was let go. *)
Definition witness (fam : list nat) (w : machine) (b : Z) : Prop :=
  exists q s, In q fam /\ get w q = Some s /\ b <= mem s.
Lemma witness_put : forall fam w p r r' b b', witness fam w b -> get w p = Some r ->
  (In p fam -> b <= mem r -> b' <= mem r') -> b' = b \/ (In p fam /\ b' <= mem r') -> witness fam (put w p (Some r')) b'.
Proof.
  intros fam w p r r' b b' (q & s & Q & G & L) Gp K D.
  assert (Lp := get_lt _ _ _ Gp).
  destruct D as [->|(Ip & D)]; [|exists p, r'; rewrite get_put_same by exact Lp; auto].
  destruct (Nat.eq_dec q p) as [->|N].
  - exists p, r'. rewrite get_put_same by exact Lp. repeat split; auto. apply K; congruence.
  - exists q, s. rewrite get_put_other by congruence. auto.
Qed.
Lemma witness_step : forall x fam w e w' b, shape x fam w -> (x < List.length w)%nat -> 0 <= b ->
  (forall q s, In q fam -> get w q = Some s -> 0 <= r_peak s) ->
  witness fam w b -> lets_go fam e = false -> get w' x <> None -> step w e = Some w' ->
  witness (grow fam e) w' (Z.max b (mem_incr fam e)).
Proof.
  intros x fam w e w' b H Lx Nb Pk W LG X T. apply step_stepped in T. pose proof (sh_after _ _ _ H Lx) as In_lt.
  destruct e; cbn [stepped grow mem_incr] in *;
    try (destruct T as (r & G & T); repeat match goal with K : _ /\ _ |- _ => destruct K end; subst w';
         eapply witness_put; [exact W | exact G | intros _; unfold mem; cbn; lia | left; lia]).
  - destruct T as (-> & _ & _ & _ & K). destruct W as (q & s & Q & G & L).
    assert (A : In_ (List.length w) fam = false) by (apply In__false; intro A; specialize (In_lt _ A); lia).
    rewrite A. exists q, s. rewrite K. specialize (In_lt _ Q).
    destruct (Nat.eqb_spec q (List.length w)); [lia|]. repeat split; auto. lia.
  - destruct T as (r & G & _ & -> & _ & _ & _ & K). destruct W as (k & s & Q & E & L).
    exists k, s. rewrite K. specialize (In_lt _ Q). destruct (Nat.eqb_spec k (List.length w)); [lia|].
    repeat split; [|exact E|lia]. destruct (In_ p fam); [right|]; exact Q.
  - destruct T as (r & G & _ & Nm & ->). destruct (In_ p fam) eqn:F.
    + apply In__spec in F. specialize (Pk _ _ F G). destruct W as (q & s & Q & E & L). pose proof (get_lt _ _ _ G) as Lp.
      destruct (Z.le_ge_cases b m) as [C|C].
      * exists p, (holding m r). rewrite get_put_same by exact Lp. repeat split; auto. unfold mem. cbn. lia.
      * destruct (Nat.eq_dec q p) as [->|N].
        -- exists p, (holding m r). rewrite get_put_same by exact Lp. repeat split; auto.
           rewrite G in E. injection E as <-. unfold mem in *. cbn. lia.
        -- exists q, s. rewrite get_put_other by congruence. repeat split; auto. lia.
    + eapply witness_put; [exact W | exact G | | left; lia]. intros Ip. apply In__spec in Ip. congruence.
  - destruct T as (r & G & _ & _ & _ & K). destruct W as (q & s & Q & E & L).
    destruct (Nat.eq_dec q p) as [->|N].
    + exists p, (ended status r). rewrite K, Nat.eqb_refl. repeat split; auto. rewrite G in E. injection E as <-.
      unfold mem in *. cbn. lia.
    + assert (Z1 : get w' q = adopted p (Some s)).
      { rewrite K, E. destruct (Nat.eqb_spec q p); [contradiction|reflexivity]. }
      cbn in Z1. destruct (r_parent s) as [|p'|]; [|destruct (Nat.eqb p' p)|];
        (eexists; eexists; split; [exact Q|]; split; [exact Z1|]; unfold mem in *; cbn; lia).
  - destruct T as (r & s & G & Gs & N & P & _ & _ & _ & -> & K). destruct W as (k & t & Q & E & L).
    destruct (Nat.eq_dec k q) as [->|M].
    + assert (M : q <> x).
      { intros ->. apply X. rewrite K, Nat.eqb_refl. destruct (Nat.eqb_spec x p); [congruence|reflexivity]. }
      destruct (sh_inside _ _ _ H q s Gs Q M) as [D|(p' & D & Ip)]; [congruence|]. rewrite P in D. injection D as <-.
      exists p, (waited s r). rewrite K, Nat.eqb_refl. repeat split; auto.
      rewrite Gs in E. injection E as <-. unfold mem in *. cbn. lia.
    + destruct (Nat.eq_dec k p) as [->|M'].
      * exists p, (waited s r). rewrite K, Nat.eqb_refl. repeat split; auto.
        rewrite G in E. injection E as <-. unfold mem in *. cbn. lia.
      * exists k, t. rewrite K. destruct (Nat.eqb_spec k p); [contradiction|].
        destruct (Nat.eqb_spec k q); [contradiction|]. repeat split; auto. lia.
  - destruct T as (s & p & G & _ & _ & ->). destruct W as (k & t & Q & E & L). cbn in LG. apply In__false in LG.
    exists k, t. rewrite get_put_other by (intros ->; contradiction). repeat split; auto. lia.
  - destruct T as (s & G & _ & _ & ->). destruct W as (k & t & Q & E & L). cbn in LG. apply In__false in LG.
    exists k, t. rewrite get_put_other by (intros ->; contradiction). repeat split; auto. lia.
  - destruct T as (s & G & P & _ & ->). destruct W as (k & t & Q & E & L).
    destruct (Nat.eq_dec k x0) as [->|M].
    + exfalso. destruct (Nat.eq_dec x0 x) as [->|M'].
      * rewrite get_put_same in X by eauto using get_lt. congruence.
      * destruct (sh_inside _ _ _ H _ s G Q M') as [D|(k & D & Ik)]; congruence.
    + exists k, t. rewrite get_put_other by congruence. repeat split; auto. lia.
Qed.
Lemma gone_for_good : forall x w e w', step w e = Some w' -> (x < List.length w)%nat -> get w x = None -> get w' x = None.
Proof.
  intros x w e w' T L N. destruct (get w' x) as [r|] eqn:G; [|reflexivity].
  destruct (made x w e w' r T N G). lia.
Qed.
Lemma witness_history : forall x c m evs w, history [] evs = Some w -> In (Starts x c m) evs ->
  (forall e, In e evs -> lets_go (family x evs) e = false) -> get w x <> None ->
  witness (family x evs) w (largest [x] evs).
Proof.
  intros x c m evs. induction evs as [|e evs IH] using rev_ind; intros w H I LG X; [destruct I|].
  apply history_snoc in H. destruct H as (v & V & T). rewrite family_snoc in *. rewrite largest_snoc.
  pose proof (shape_history x evs v V) as Sh. change (fold_left grow evs [x]) with (family x evs).
  assert (LG1 : forall a, In a evs -> lets_go (family x evs) a = false).
  { intros a A. apply (lets_go_less a e). apply LG. apply in_or_app. left. exact A. }
  assert (LG2 : lets_go (family x evs) e = false).
  { apply (lets_go_less e e). apply LG. apply in_or_app. right. left. reflexivity. }
  apply in_app_or in I. destruct I as [I|[->|[]]].
  - destruct (started _ _ _ _ _ V I) as (L & _).
    apply (witness_step x _ v e w (largest [x] evs) Sh L (largest_nonneg _ _)); auto.
    + intros q s Q G. pose proof (mem_history x c m evs v V I q s Q G) as M. unfold mem_bound in M. lia.
    + apply IH; auto. intro N. apply X. exact (gone_for_good x v e w T L N).
  - apply step_stepped in T. destruct T as (-> & _ & Nm & _ & K). cbn [grow].
    rewrite (sh_before _ _ _ Sh) by lia. destruct (spent_before (List.length v) evs v V (Nat.le_refl _)) as (_ & ->).
    exists (List.length v), (forked_by_judger c m). split; [left; reflexivity|]. rewrite K, Nat.eqb_refl. split; [reflexivity|].
    assert (A : In_ (List.length v) [List.length v] = true) by (apply In__spec; left; reflexivity).
    rewrite A. unfold mem. cbn. lia.
Qed.
Lemma memory_at_most : forall evs w x c m r, history [] evs = Some w -> In (Starts x c m) evs -> get w x = Some r ->
  0 <= mem r <= largest [x] evs.
Proof.
  intros evs w x c m r H I G.
  pose proof (mem_history x c m evs w H I x r (sh_self _ _ _ (shape_history x evs w H)) G) as M.
  unfold mem_bound in M. unfold mem. lia.
Qed.
Lemma memory_exact : forall evs w x c m r, history [] evs = Some w -> In (Starts x c m) evs -> get w x = Some r ->
  all_waited_for x evs w -> mem r = largest [x] evs.
Proof.
  intros evs w x c m r H I G (LG & O).
  destruct (witness_history x c m evs w H I LG ltac:(congruence)) as (q & s & Q & E & L).
  destruct (Nat.eq_dec q x) as [->|N]; [|rewrite (O q Q N) in E; discriminate].
  rewrite G in E. injection E as <-. pose proof (memory_at_most evs w x c m r H I G). lia.
Qed.
