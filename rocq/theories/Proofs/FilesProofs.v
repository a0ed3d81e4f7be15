(** Sizes and contents of the files a judged program writes. *)
From Coq Require Import ZArith Bool List Ascii String Lia.
From Verif.Base Require Import CInt CStr.
From Verif.Model Require Import Config Runner Seccomp Child Program Files.
From Verif.Spec Require Import RunSpec SandboxSpec ContainSpec FilesSpec.
From Verif.Proofs Require Import ChildProofs ChildClaims ProgramProofs FilesOpen.
Import ListNotations.
Open Scope list_scope.
Open Scope Z_scope.

Section FilesProofs.
Variable file_of : str -> nat.
Variable xfsz : nat -> bool.
Notation fstep := (fstep file_of xfsz).
Notation fruns := (fruns file_of xfsz).

(** ** As a history of Model/Program.v *)
Lemma runs_app w a w1 b w2 : runs w a w1 -> runs w1 b w2 -> runs w (a ++ b) w2.
Proof. intros H. induction H; intros R; [exact R|]. cbn. econstructor; eauto. Qed.
Lemma runs_one w e w' : step w e w' -> runs w [e] w'.
Proof. intros H. econstructor; [exact H|constructor]. Qed.

Lemma fstep_runs w D d w' D' : fstep w D d w' D' -> exists evs, runs w evs w' /\ (forall p sc, In (Calls p sc) evs -> d_event d = Calls p sc).
Proof.
  assert (forall p sc w', step w (Calls p sc) w' -> exists evs, runs w evs w' /\ (forall q sc', In (Calls q sc') evs -> Calls p sc = Calls q sc')) as One.
  { intros p sc w1 H. exists [Calls p sc]. split; [apply runs_one, H|]. intros q sc' [H1|[]]. exact H1. }
  intros H. destruct H as [p P sc o pos asked fits taken rest H1 H2 H3 H4 H5 H6 H7|p P sc o pos asked H1 H2 H3 H4 H5 H6|p P sc H1 H2 H3
    |p P sc o pos H1 H2 H3 H4|p P sc o pos H1 H2 H3 H4 H5|p P sc flags path id n trunc H1 H2 H3 H4 H5|p P sc w' H1 H2 H3 H4 H5|p P sc w' D' H1 H2 H3|p P sc w' H1 H2 H3|p sig w' H1]; cbn [d_event].
  - apply One. apply (step_allowed w p P); [exact H1|exact H2|constructor].
  - destruct (xfsz p); [|apply One; apply (step_allowed w p P); [exact H1|exact H2|constructor]].
    exists [Hit p SIGXFSZ]. split; [apply runs_one, (step_hit w p P), H1|]. intros q sc' [X|[]]. discriminate X.
  - apply One. apply (step_allowed w p P); [exact H1|exact H2|constructor].
  - apply One. apply (step_allowed w p P); [exact H1|exact H2|constructor].
  - apply One. apply (step_allowed w p P); [exact H1|exact H2|constructor].
  - apply One. apply (step_allowed w p P); [exact H1|exact H2|]. eapply ex_open; [exact H3|exact H4].
  - apply One. apply (step_allowed w p P); assumption.
  - apply One. apply (step_allowed w p P); [exact H1|exact H2|]. apply ex_other, H3.
  - apply One, H3.
  - exists [Hit p sig]. split; [apply runs_one, H1|]. intros q sc' [X|[]]. discriminate X.
Qed.

Lemma fruns_runs w D ds w' D' : fruns w D ds w' D' -> exists evs, runs w evs w'.
Proof.
  intros H. induction H as [|ds w1 D1 d w2 D2 H [evs IH] St]; [exists []; constructor|].
  destruct (fstep_runs _ _ _ _ _ St) as (e2 & R & _). exists (evs ++ e2). apply (runs_app _ _ w1); assumption.
Qed.

(** ** Sizes *)
Lemma write_at_length old off new : List.length (write_at old off new) = Nat.max (List.length old) (off + List.length new).
Proof. unfold write_at. rewrite !app_length, firstn_length, repeat_length, skipn_length. lia. Qed.

Lemma fitting_ok limit pos asked fits : fitting limit pos asked = Some fits ->
  fits = [] \/ limit = RLIM_INFINITY \/ Z.of_nat (pos + List.length fits) <= limit.
Proof.
  unfold fitting. destruct asked as [|a l]; [intros E; injection E as <-; auto|].
  destruct (Z.eqb_spec limit RLIM_INFINITY) as [E|E]; [auto|].
  destruct (Z.leb_spec limit (Z.of_nat pos)); [discriminate|]. intros X. injection X as <-. right. right.
  rewrite firstn_length. lia.
Qed.

Lemma size_set_pos D i n f : size_of (set_pos D i n) f = size_of D f.
Proof. reflexivity. Qed.
Lemma size_set_data D g l f : size_of (set_data D g l) f = if Nat.eqb f g then Z.of_nat (List.length l) else size_of D f.
Proof. unfold size_of. cbn. destruct (Nat.eqb f g); reflexivity. Qed.

Lemma after_write_size D o pos limit asked fits taken rest f : fitting limit pos asked = Some fits -> fits = taken ++ rest ->
  limit <> RLIM_INFINITY -> size_of (after_write file_of D o pos taken) f <= Z.max (size_of D f) limit.
Proof.
  intros F E N. unfold after_write. destruct taken as [|a l]; [lia|]. rewrite size_set_pos, size_set_data.
  destruct (Nat.eqb_spec f (file file_of o)) as [->|X]; [|lia].
  rewrite write_at_length. destruct (fitting_ok _ _ _ _ F) as [Z0|[Z0|Z0]]; [subst fits; discriminate Z0|contradiction|].
  subst fits. rewrite app_length in Z0. unfold size_of in *. lia.
Qed.

Lemma limited_rlim L P : limited_to L P -> snd (p_rlim P RFsize) <= L /\ snd (p_rlim P RFsize) < RLIM_INFINITY.
Proof.
  intros (c & ptr & (env & log & k0 & path & a & v & k & R & U & Lm & E & _ & ->) & N & B).
  destruct (c15_limits _ _ _ _ _ _ _ _ R E RFsize) as [H1 H2]. cbn -[RLIM_INFINITY]. rewrite H1. cbn [wanted_limit] in *.
  destruct (Z.eqb_spec (max_output_size c) (-1)) as [X|X]; [contradiction|]. specialize (H2 _ eq_refl).
  unfold RLIM_INFINITY. cbn. lia.
Qed.

Theorem sizes_bounded L w D ds w' D' : all_started w -> (forall p P, w p = Some (inl P) -> limited_to L P) ->
  fruns w D ds w' D' -> forall f, size_of D' f <= Z.max (size_of D f) L.
Proof.
  intros A Lim R f. induction R as [|ds w1 D1 d w2 D2 R IH St]; [lia|].
  assert (inv w w1) as I.
  { destruct (fruns_runs _ _ _ _ _ R) as (evs & Rn). apply (runs_inv w w evs); [intros p s; apply started_confined, A| |exact Rn].
    apply inv_start. intros p s. apply started_confined, A. }
  assert (forall p P, w1 p = Some (inl P) -> fst (p_rlim P RFsize) <= L /\ fst (p_rlim P RFsize) <> RLIM_INFINITY) as Lm.
  { intros p P H. pose proof (I p) as Ip. rewrite H in Ip. destruct Ip as (P0 & H0 & (_ & _ & _ & O) & _).
    specialize (O RFsize). destruct (limited_rlim L P0 (Lim p P0 H0)). lia. }
  assert (forall p P sc, w1 p = Some (inl P) -> filters_action (p_filters P) sc = ActAllow -> In (sc_name sc) modelled) as Md.
  { intros p P sc H Ha. pose proof (I p) as Ip. rewrite H in Ip. destruct Ip as (P0 & H0 & (_ & _ & F & _) & _).
    destruct (started_confined w p _ A H0) as (P0' & X & C). injection X as <-. apply (allowed_modelled P0); [exact C|congruence]. }
  destruct St as [p P sc o pos asked fits taken rest H1 H2 H3 H4 H5 H6 H7|p P sc o pos asked H1 H2 H3 H4 H5 H6|p P sc H1 H2 H3
    |p P sc o pos H1 H2 H3 H4|p P sc o pos H1 H2 H3 H4 H5|p P sc flags path id n trunc H1 H2 H3 H4 H5|p P sc w' H1 H2 H3 H4 H5|p P sc w' D' H1 H2 H3|p P sc w' H1 H2 H3|p sig w' H1]; try exact IH.
  - destruct (Lm p P H1) as [B N]. pose proof (after_write_size D1 o pos _ asked fits taken rest f H6 H7 N). lia.
  - rewrite size_set_pos. destruct trunc; [|exact IH]. rewrite size_set_data. destruct (Nat.eqb f (file_of path)); [|exact IH]. unfold size_of. cbn. lia.
  - exfalso. apply H3, (Md p P sc H1 H2).
Qed.

Theorem at_limit w D p P sc o asked taken w' D' : w p = Some (inl P) -> of_mode o = MWrite ->
  fst (p_rlim P RFsize) <> RLIM_INFINITY -> fst (p_rlim P RFsize) <= Z.of_nat (d_pos D (of_id o)) -> asked <> [] ->
  fstep w D (mkDeed (Calls p sc) (Some (o, asked, taken))) w' D' ->
  taken = [] /\ D' = D /\ w' = if xfsz p then put w p (inr (Signaled 25)) else w.
Proof.
  intros Hp Mo Ni Le Na St.
  inversion St as [p0 P0 sc0 o0 pos a0 fits t0 rest H1 H2 H3 H4 H5 H6 H7|p0 P0 sc0 o0 pos a0 H1 H2 H3 H4 H5 H6| | | | | | | |]; subst.
  - exfalso. rewrite Hp in H1. injection H1 as <-. unfold writes_at in H5. rewrite Mo in H5. subst pos.
    unfold fitting in H6. destruct asked as [|x l]; [contradiction|]. destruct (Z.eqb_spec (fst (p_rlim P RFsize)) RLIM_INFINITY); [contradiction|].
    destruct (Z.leb_spec (fst (p_rlim P RFsize)) (Z.of_nat (d_pos D (of_id o)))); [discriminate H6|lia].
  - split; [reflexivity|]. split; [reflexivity|]. reflexivity.
Qed.

Theorem below_limit w D p P sc o asked taken w' D' : w p = Some (inl P) -> of_mode o = MWrite ->
  fst (p_rlim P RFsize) <> RLIM_INFINITY -> Z.of_nat (d_pos D (of_id o)) < fst (p_rlim P RFsize) ->
  fstep w D (mkDeed (Calls p sc) (Some (o, asked, taken))) w' D' ->
  w' = w /\ (exists left, asked = taken ++ left) /\ Z.of_nat (d_pos D (of_id o) + List.length taken) <= fst (p_rlim P RFsize).
Proof.
  intros Hp Mo Ni Lt St.
  inversion St as [p0 P0 sc0 o0 pos a0 fits t0 rest H1 H2 H3 H4 H5 H6 H7|p0 P0 sc0 o0 pos a0 H1 H2 H3 H4 H5 H6| | | | | | | |]; subst.
  - rewrite Hp in H1. injection H1 as <-. unfold writes_at in H5. rewrite Mo in H5. subst pos. split; [reflexivity|].
    unfold fitting in H6. destruct asked as [|x l].
    { injection H6 as E. symmetry in E. apply app_eq_nil in E. destruct E as [-> ->]. split; [exists []; reflexivity|cbn; lia]. }
    destruct (Z.eqb_spec (fst (p_rlim P RFsize)) RLIM_INFINITY); [contradiction|].
    destruct (Z.leb_spec (fst (p_rlim P RFsize)) (Z.of_nat (d_pos D (of_id o)))); [lia|]. injection H6 as E. split.
    + exists (rest ++ skipn (Z.to_nat (fst (p_rlim P RFsize)) - d_pos D (of_id o)) (x :: l)). rewrite app_assoc, <- E. symmetry. apply firstn_skipn.
    + assert (List.length (taken ++ rest) <= Z.to_nat (fst (p_rlim P RFsize)) - d_pos D (of_id o))%nat by (rewrite <- E; apply firstn_le_length).
      rewrite app_length in H0. lia.
  - exfalso. rewrite Hp in H1. injection H1 as <-. unfold writes_at in H5. rewrite Mo in H5. subst pos.
    unfold fitting in H6. destruct asked as [|x l]; [discriminate H6|]. destruct (Z.eqb_spec (fst (p_rlim P RFsize)) RLIM_INFINITY); [discriminate H6|].
    destruct (Z.leb_spec (fst (p_rlim P RFsize)) (Z.of_nat (d_pos D' (of_id o)))); [lia|discriminate H6].
Qed.

(** ** Contents *)
Lemma bytes_app i a b : bytes_through i (a ++ b) = bytes_through i a ++ bytes_through i b.
Proof.
  induction a as [|d a IH]; [reflexivity|]. cbn. destruct (d_wrote d) as [[[o x] t]|]; [|exact IH].
  rewrite IH, app_assoc. reflexivity.
Qed.

Lemma write_end old new : write_at old (List.length old) new = old ++ new.
Proof.
  unfold write_at. rewrite firstn_all, Nat.sub_diag, skipn_all2 by lia. cbn. rewrite app_nil_r. reflexivity.
Qed.

(** Every descriptor of [P] is one of the start. *)
Definition from_start (P0 P : proc) : Prop := forall n o, fd_get (p_fds P) n = Some o -> exists m, fd_get (p_fds P0) m = Some o.
Definition lone (w0 w : world) : Prop :=
  forall q, match w q with
            | None => True
            | Some (inl P) => exists P0, w0 q = Some (inl P0) /\ from_start P0 P
            | Some (inr _) => exists P0, w0 q = Some (inl P0)
            end.

Lemma lone_put w0 w q P s : lone w0 w -> w q = Some (inl P) ->
  (forall P0, w0 q = Some (inl P0) -> from_start P0 P -> match s with inl P => from_start P0 P | inr _ => True end) -> lone w0 (put w q s).
Proof.
  intros I H K r. unfold put. destruct (Nat.eqb_spec r q) as [->|N]; [|apply I].
  specialize (I q). rewrite H in I. destruct I as (P0 & I1 & I2). specialize (K P0 I1 I2). destruct s; eauto.
Qed.

Lemma lone_at w0 w q P : lone w0 w -> w q = Some (inl P) -> exists P0, w0 q = Some (inl P0) /\ from_start P0 P.
Proof. intros I H. specialize (I q). rewrite H in I. exact I. Qed.

Lemma lone_executes w0 w q P sc w' : lone w0 w -> w q = Some (inl P) -> In (sc_name sc) modelled ->
  ~ In (sc_name sc) ["lseek"; "open"; "openat"]%string -> executes w q P sc w' -> lone w0 w'.
Proof.
  intros I H M N Ex.
  destruct Ex as [|flags path id n Hn Hf|old new d Hn Hf|n Hn|r Q rs soft hard Hn Hr Hq HQ Hm Hs Hh|fds c Hn Hf Hc|c Hn Hi|Hn|Hn|w' Hn].
  - exact I.
  - exfalso. apply N. destruct Hn as [[-> _]|[-> _]]; cbn; auto.
  - apply (lone_put w0 w q P); [exact I|exact H|]. intros P0 _ F m o. cbn. rewrite fd_get_set. destruct (Nat.eqb new m); [intros X; injection X as <-; eauto|apply F].
  - apply (lone_put w0 w q P); [exact I|exact H|]. intros P0 _ F m o. cbn. rewrite fd_get_set. destruct (Nat.eqb n m); [discriminate|apply F].
  - apply (lone_put w0 w r Q); [exact I|exact HQ|]. intros P0 _ F. exact F.
  - apply (lone_put w0 w q P); [exact I|exact H|]. intros P0 _ F m o X. cbn in X. exact (F m o (Hf m o X)).
  - apply (lone_put w0 w q P); [exact I|exact H|]. intros P0 _ F. exact F.
  - apply (lone_put w0 w q P); [exact I|exact H|]. intros; exact Logic.I.
  - apply (lone_put w0 w q P); [exact I|exact H|]. intros P0 _ F. exact F.
  - contradiction.
Qed.

Lemma lone_step w0 w e w' : lone w0 w -> step w e w' ->
  (forall q sc, e = Calls q sc -> In (sc_name sc) modelled /\ ~ In (sc_name sc) ["lseek"; "open"; "openat"]%string) -> lone w0 w'.
Proof.
  intros I St N. destruct St as [q P sc w' H Ha Ex|q P sc er H Ha|q P sc H Ha|q P sig H].
  - destruct (N q sc eq_refl) as [N1 N2]. exact (lone_executes w0 w q P sc w' I H N1 N2 Ex).
  - exact I.
  - apply (lone_put w0 w q P); [exact I|exact H|]. intros P0 _ F. unfold killed_thread.
    destruct (Nat.leb _ _); [exact Logic.I|exact F].
  - apply (lone_put w0 w q P); [exact I|exact H|]. intros; exact Logic.I.
Qed.

Lemma lone_runs w0 w evs w' : lone w0 w -> runs w evs w' ->
  (forall q sc, In (Calls q sc) evs -> In (sc_name sc) modelled /\ ~ In (sc_name sc) ["lseek"; "open"; "openat"]%string) -> lone w0 w'.
Proof.
  intros I R. induction R as [|w e w1 evs w2 St R IH]; intros N; [exact I|]. apply IH.
  - apply (lone_step w0 w e); [exact I|exact St|]. intros q sc ->. apply (N q sc). left. reflexivity.
  - intros q sc H. apply (N q sc). right. exact H.
Qed.

(** The file behind description [i] of the program holds what went through [i]. *)
Definition only_through (w : world) (o : ofile) (D : disk) : Prop :=
  (forall q s, w q = Some s -> exists P, s = inl P) /\
  of_mode o = MWrite /\ d_data D (file_of (of_path o)) = [] /\ d_pos D (of_id o) = 0%nat /\
  (forall q P m o', w q = Some (inl P) -> fd_get (p_fds P) m = Some o' -> of_id o' = of_id o -> o' = o) /\
  (forall q P m o', w q = Some (inl P) -> fd_get (p_fds P) m = Some o' -> of_mode o' <> MRead -> of_id o' = of_id o \/ file_of (of_path o') <> file_of (of_path o)).

Theorem captured w o D ds w' D' : only_through w o D ->
  streams_only ds -> fruns w D ds w' D' ->
  lone w w' /\ d_data D' (file_of (of_path o)) = bytes_through (of_id o) ds /\
  d_pos D' (of_id o) = List.length (bytes_through (of_id o) ds).
Proof.
  intros (Al & Mo & D0 & Pos0 & Same & Sole) So R.
  induction R as [|ds w1 D1 d w2 D2 R IH St].
  { split; [|auto]. intros q. destruct (w q) as [s|] eqn:Ew; [|exact Logic.I]. destruct (Al q s Ew) as (P & ->).
    exists P. split; [reflexivity|]. intros n x H. eauto. }
  destruct IH as (I & Da & Po). { intros d' q sc H. apply So. apply in_app_iff. left. exact H. }
  assert (forall q sc, d_event d = Calls q sc -> In (sc_name sc) modelled /\ ~ In (sc_name sc) ["lseek"; "open"; "openat"]%string) as N.
  { intros q sc. apply So. apply in_app_iff. right. left. reflexivity. }
  split.
  { destruct (fstep_runs _ _ _ _ _ St) as (evs & Rn & Q). apply (lone_runs w w1 evs); [exact I|exact Rn|].
    intros q sc H. apply (N q sc), (Q q sc H). }
  rewrite bytes_app. cbn [bytes_through].
  destruct St as [q P sc o' pos asked fits taken rest H1 H2 H3 H4 H5 H6 H7|q P sc o' pos asked H1 H2 H3 H4 H5 H6|q P sc H1 H2 H3
    |q P sc o' pos H1 H2 H3 H4|q P sc o' pos H1 H2 H3 H4 H5|q P sc flags path id n trunc H1 H2 H3 H4 H5|q P sc w' H1 H2 H3 H4 H5|q P sc w' D' H1 H2 H3|q P sc w' H1 H2 H3|q sig w' H1];
    cbn [d_wrote d_event] in *; rewrite ?app_nil_r; auto.
  - (* a write *)
    destruct (lone_at _ _ _ _ I H1) as (P0 & Ew & F). unfold target in H4. destruct (sc_arg sc 0 <? 0); [discriminate|].
    destruct (F _ _ H4) as (m & Fm).
    assert (of_mode o' <> MRead) as Nr. { intros X. unfold writes_at in H5. rewrite X in H5. exact H5. }
    destruct (Nat.eqb_spec (of_id o') (of_id o)) as [Ei|Ni].
    + assert (o' = o) as -> by exact (Same q P0 m o' Ew Fm Ei). unfold writes_at in H5. rewrite Mo in H5.
      unfold after_write. destruct taken as [|a l]; [rewrite app_nil_r; auto|].
      subst pos. rewrite Po. cbn [set_pos set_data d_data d_pos]. rewrite !Nat.eqb_refl.
      unfold file. rewrite Da, write_end. split; [reflexivity|]. rewrite app_length. reflexivity.
    + rewrite app_nil_r. destruct (Sole q P0 m o' Ew Fm Nr) as [X|X]; [contradiction|].
      unfold after_write. destruct taken as [|a l]; [auto|]. cbn [set_pos set_data d_data d_pos].
      unfold file. rewrite (proj2 (Nat.eqb_neq _ _) (not_eq_sym X)). rewrite (proj2 (Nat.eqb_neq _ _) (not_eq_sym Ni)). auto.
  - destruct (Nat.eqb (of_id o') (of_id o)); cbn; rewrite app_nil_r; auto.
  - exfalso. destruct (N q sc eq_refl) as [_ X]. apply X. rewrite H3. cbn. auto.
  - (* a read *)
    destruct (lone_at _ _ _ _ I H1) as (P0 & Ew & F). unfold target in H4. destruct (sc_arg sc 0 <? 0); [discriminate|].
    destruct (F _ _ H4) as (m & Fm). cbn [set_pos d_data d_pos]. split; [exact Da|].
    destruct (Nat.eqb_spec (of_id o) (of_id o')) as [Ei|Ni]; [|exact Po].
    assert (o' = o) as -> by exact (Same q P0 m o' Ew Fm (eq_sym Ei)). destruct H5; congruence.
  - exfalso. destruct (N q sc eq_refl) as [_ X]. apply X. destruct H3 as [[-> _]|[-> _]]; cbn; auto.
  - exfalso. destruct (N q sc eq_refl) as [X _]. contradiction.
Qed.

(** ** The files at the start *)
Lemma opened_data D ev f : (d_data (opened_on file_of D ev) f = [] \/ d_data (opened_on file_of D ev) f = d_data D f).
Proof. destruct ev; cbn; auto. destruct m; cbn; auto. destruct (Nat.eqb f _); auto. Qed.

Lemma fold_empty tr : forall D f, d_data D f = [] -> d_data (fold_left (opened_on file_of) tr D) f = [].
Proof.
  induction tr as [|ev tr IH]; intros D f H; [exact H|]. cbn. apply IH. destruct (opened_data D ev f) as [X|X]; [exact X|congruence].
Qed.

Lemma fold_truncated tr : forall D i path, In (EvOpen i path MWrite) tr -> d_data (fold_left (opened_on file_of) tr D) (file_of path) = [].
Proof.
  induction tr as [|ev tr IH]; intros D i path H; [destruct H|]. cbn. destruct H as [->|H].
  - apply fold_empty. cbn. rewrite Nat.eqb_refl. reflexivity.
  - exact (IH _ i path H).
Qed.

Lemma fold_zero tr : forall D i, d_pos D i = 0%nat \/ (exists path m, In (EvOpen i path m) tr) -> d_pos (fold_left (opened_on file_of) tr D) i = 0%nat.
Proof.
  induction tr as [|ev tr IH]; intros D i H.
  { destruct H as [H|(p & m & [])]. exact H. }
  cbn. apply IH. destruct H as [H|(p & m & [->|H])].
  - left. destruct ev; cbn; auto. destruct m; cbn; destruct (Nat.eqb i id); auto.
  - left. cbn. destruct m; cbn; rewrite Nat.eqb_refl; reflexivity.
  - right. eauto.
Qed.

Lemma fold_kept tr : forall D f, (forall i path, In (EvOpen i path MWrite) tr -> file_of path <> f) ->
  d_data (fold_left (opened_on file_of) tr D) f = d_data D f.
Proof.
  induction tr as [|ev tr IH]; intros D f H; [reflexivity|]. cbn. rewrite IH.
  - destruct ev as [| i path m | | | | | | | |]; try reflexivity. destruct m; cbn; try reflexivity.
    destruct (Nat.eqb_spec f (file_of path)) as [->|]; [|reflexivity]. exfalso. exact (H i path (or_introl eq_refl) eq_refl).
  - intros i path X. apply (H i path). right. exact X.
Qed.

Lemma script_open c path m : In (SOpen path m) (sandbox_script c) ->
  (input_path c = Some path /\ m = MRead) \/ ((output_path c = Some path \/ error_path c = Some path) /\ m = MWrite).
Proof.
  unfold sandbox_script. rewrite !in_app_iff. intros H.
  destruct H as [H|[H|[H|[H|[H|[H|[H|[]]]]]]]].
  - exfalso. unfold limit_steps in H. apply in_flat_map in H. destruct H as (r & _ & H). destruct (wanted_limit c r); [destruct H as [H|[]]; discriminate H|destruct H].
  - unfold input_steps in H. destruct (input_path c) as [q|]; [|destruct H]. destruct H as [H|[H|[]]]; [|discriminate H]. injection H as <- <-. auto.
  - unfold output_steps in H. destruct (output_path c) as [q|]; [|destruct H]. destruct H as [H|[H|[]]]; [|discriminate H]. injection H as <- <-. auto.
  - unfold error_steps in H. destruct (error_path c) as [q|]; [|destruct H].
    destruct (output_path c) as [q'|]; [destruct (str_eqb q' q)|]; destruct H as [H|H]; try discriminate H; try contradiction H;
      try (destruct H as [H|[]]; discriminate H); injection H as <- <-; auto.
  - exfalso. unfold id_steps in H. apply in_app_iff in H. destruct (gid c =? keep_id), (uid c =? keep_id); cbn in H;
      repeat destruct H as [H|H]; try discriminate H; try contradiction H.
  - exfalso. unfold filter_steps in H. destruct (seccomp_rule_name c); [destruct H as [H|[]]; discriminate H|destruct H].
  - discriminate H.
Qed.

Section Started.
Variable (env : child_env) (log : option stream) (c : config) (k0 : kstate) (path : str) (a v : list cell) (k : kstate).
Hypothesis R : ready c k0.
Hypothesis E : child_process env log c k0 = CExec path a v k.

Lemma opens_listed i q m : In (EvOpen i q m) (k_trace k) ->
  (input_path c = Some q /\ m = MRead) \/ ((output_path c = Some q \/ error_path c = Some q) /\ m = MWrite).
Proof.
  intros H. apply script_open. destruct (c13_complete_sandbox _ _ _ _ _ _ _ _ R E) as (_ & _ & _ & <-).
  apply in_flat_map. exists (EvOpen i q m). split; [exact H|left; reflexivity].
Qed.

Lemma new_opened n o : fd_get (k_fds k) n = Some o -> (k_next k0 <= of_id o)%nat -> In (EvOpen (of_id o) (of_path o) (of_mode o)) (k_trace k).
Proof.
  intros H G. destruct R as (_ & _ & _ & Fk). destruct (exec_tracked _ _ _ _ _ _ _ _ Fk E) as (T & _).
  destruct (T n o H) as [(m & X)|X]; [|exact X]. destruct Fk as (_ & _ & F3). specialize (F3 m o X). lia.
Qed.

Lemma same_id n o n' o' : fd_get (k_fds k) n = Some o -> fd_get (k_fds k) n' = Some o' -> (k_next k0 <= of_id o)%nat ->
  of_id o' = of_id o -> o' = o.
Proof.
  intros H H' G Ei. pose proof (new_opened n o H G) as O1. pose proof (new_opened n' o' H' ltac:(lia)) as O2.
  destruct R as (_ & _ & _ & Fk). destruct (exec_tracked _ _ _ _ _ _ _ _ Fk E) as (_ & _ & T & _).
  rewrite Ei in O2. destruct (T _ _ _ _ _ O1 O2) as [X Y]. destruct o, o'. cbn in *. congruence.
Qed.

(** *** Output and error *)
Lemma stream_facts n q w p o D : (n = 1%nat /\ output_path c = Some q) \/ (n = 2%nat /\ error_path c = Some q) ->
  not_held file_of k0 (file_of q) -> well_told file_of (output_path c) (error_path c) ->
  w p = Some (inl (program_of k)) -> descriptor k n = Some o -> all_running w -> nobody_else file_of w p (of_id o) (file_of q) ->
  of_path o = q /\ only_through w o (disk_after file_of k D).
Proof.
  intros Hn Nh Wt Wp Dn Al El. destruct (c18_standard_streams _ _ _ _ _ _ _ _ R E) as (_ & S1 & S2 & S3).
  destruct (c19_inherited _ _ _ _ _ _ _ _ R E) as (_ & Inh).
  assert (redirected k0 k n q MWrite) as (o1 & Do & Po & Mo & Go0).
  { destruct Hn as [[-> H]|[-> H]]; [apply S1, H|apply S2, H]. }
  assert (o1 = o) as -> by congruence. split; [exact Po|].
  rewrite descriptor_fd_get in Do. pose proof (new_opened n o Do Go0) as Op. rewrite Mo in Op.
  unfold only_through. repeat apply conj.
  - exact Al.
  - exact Mo.
  - unfold disk_after. apply (fold_truncated _ _ (of_id o)), Op.
  - unfold disk_after. apply fold_zero. right. eauto.
  - intros r P m o' Hr H Ei. destruct (Nat.eq_dec r p) as [->|Nr].
    + rewrite Wp in Hr. injection Hr as <-. exact (same_id n o m o' Do H Go0 Ei).
    + exfalso. destruct (El r P m o' Hr Nr H) as [X _]. exact (X Ei).
  - intros r P m o' Hr H Nr. destruct (Nat.eq_dec r p) as [->|Nrp].
    2:{ right. destruct (El r P m o' Hr Nrp H) as [_ X]. rewrite Po. exact (X Nr). }
    rewrite Wp in Hr. injection Hr as <-. cbn in H. destruct (Inh m o') as [X|(G & X)]; [rewrite descriptor_fd_get; exact H| |].
    + right. rewrite Po. apply (Nh m o' X Nr).
    + destruct X as [[_ X]|[X X0]]; [contradiction|]. rewrite Po.
      (* o' was opened for one of the two paths *)
      destruct (list_eq_dec Ascii.ascii_dec (of_path o') q) as [Pq|Pq].
      2:{ right. destruct Hn as [[-> Hn]|[-> Hn]]; destruct X as [X|X].
          - rewrite Hn in X. congruence.
          - destruct (Wt q (of_path o') Hn X); [congruence|auto].
          - destruct (Wt (of_path o') q X Hn); [congruence|auto].
          - rewrite Hn in X. congruence. }
      left. destruct (Nat.eq_dec (of_id o') (of_id o)) as [Z0|Z0]; [exact Z0|exfalso].
      (* two openings of the same path for writing: the script has one *)
      assert (In (EvOpen (of_id o') q MWrite) (k_trace k)) as Op'.
      { pose proof (new_opened m o' H G) as Y. rewrite Pq, X0 in Y. exact Y. }
      rewrite Po in Op. clear - R E Op Op' Z0 Hn.
      destruct (c13_complete_sandbox _ _ _ _ _ _ _ _ R E) as (_ & _ & _ & Sc).
      assert (forall tr, In (EvOpen (of_id o) q MWrite) tr -> In (EvOpen (of_id o') q MWrite) tr ->
        (2 <= count_occ Bool.bool_dec (map (fun s => match s with SOpen x MWrite => str_eqb x q | _ => false end) (flat_map performed tr)) true)%nat) as C2.
      { assert (forall i tr, In (EvOpen i q MWrite) tr ->
          (1 <= count_occ Bool.bool_dec (map (fun s => match s with SOpen x MWrite => str_eqb x q | _ => false end) (flat_map performed tr)) true)%nat) as C1.
        { intros i tr H. apply count_occ_In. apply in_map_iff. exists (SOpen q MWrite). split; [apply str_eqb_refl|].
          apply in_flat_map. exists (EvOpen i q MWrite). split; [exact H|left; reflexivity]. }
        induction tr as [|ev tr IH]; intros H1 H2; [destruct H1|]. cbn [flat_map]. rewrite map_app, count_occ_app.
        destruct H1 as [H1|H1], H2 as [H2|H2].
        - rewrite H1 in H2. injection H2 as H2. congruence.
        - subst ev. cbn [performed map]. rewrite str_eqb_refl. cbn. specialize (C1 _ _ H2). lia.
        - subst ev. cbn [performed map]. rewrite str_eqb_refl. cbn. specialize (C1 _ _ H1). lia.
        - specialize (IH H1 H2). lia. }
      specialize (C2 _ Op Op'). rewrite Sc in C2.
      assert (forall l, (forall s, In s l -> forall x, s <> SOpen x MWrite) ->
        count_occ Bool.bool_dec (map (fun s => match s with SOpen x MWrite => str_eqb x q | _ => false end) l) true = 0%nat) as C0.
      { intros l H. apply count_occ_not_In. intros X. apply in_map_iff in X. destruct X as (s & X1 & X2). specialize (H s X2).
        destruct s as [| x m0 | | | | | |]; try discriminate X1. destruct m0; try discriminate X1. exact (H x eq_refl). }
      unfold sandbox_script in C2. rewrite !map_app, !count_occ_app in C2.
      rewrite (C0 (limit_steps c)) in C2.
      2:{ intros s H x ->. unfold limit_steps in H. apply in_flat_map in H. destruct H as (r & _ & H). destruct (wanted_limit c r); [destruct H as [H|[]]; discriminate H|destruct H]. }
      rewrite (C0 (input_steps c)) in C2.
      2:{ intros s H x ->. unfold input_steps in H. destruct (input_path c); [destruct H as [H|[H|[]]]; discriminate H|destruct H]. }
      rewrite (C0 (id_steps c)) in C2.
      2:{ intros s H x ->. unfold id_steps in H. apply in_app_iff in H. destruct (gid c =? keep_id), (uid c =? keep_id); cbn in H;
          repeat destruct H as [H|H]; try discriminate H; try contradiction H. }
      rewrite (C0 (filter_steps c)) in C2.
      2:{ intros s H x ->. unfold filter_steps in H. destruct (seccomp_rule_name c); [destruct H as [H|[]]; discriminate H|destruct H]. }
      unfold output_steps, error_steps in C2. cbn in C2.
      destruct (output_path c) as [qo|], (error_path c) as [qe|]; cbn in C2.
      * destruct (str_eqb qo qe) eqn:Eq; cbn in C2.
        -- destruct (str_eqb qo q); cbn in C2; lia.
        -- destruct (str_eqb qo q) eqn:E1, (str_eqb qe q) eqn:E2; cbn in C2; try lia.
           apply str_eqb_eq in E1, E2. subst. rewrite str_eqb_refl in Eq. discriminate Eq.
      * destruct (str_eqb qo q); cbn in C2; lia.
      * destruct (str_eqb qe q); cbn in C2; lia.
      * lia.
Qed.

Lemma stream_captured n q w p o D ds w' D' : (n = 1%nat /\ output_path c = Some q) \/ (n = 2%nat /\ error_path c = Some q) ->
  not_held file_of k0 (file_of q) -> well_told file_of (output_path c) (error_path c) ->
  w p = Some (inl (program_of k)) -> descriptor k n = Some o -> all_running w -> nobody_else file_of w p (of_id o) (file_of q) ->
  fruns w (disk_after file_of k D) ds w' D' -> streams_only ds ->
  d_data D' (file_of q) = bytes_through (of_id o) ds.
Proof.
  intros Hn Nh Wt Wp Dn Al El Rn So. destruct (stream_facts n q w p o D Hn Nh Wt Wp Dn Al El) as (<- & O).
  apply (captured w o _ ds w' D' O So Rn).
Qed.

(** *** Input *)
Lemma input_intact q D : input_path c = Some q ->
  (forall p, output_path c = Some p \/ error_path c = Some p -> file_of p <> file_of q) ->
  exists o, descriptor k 0 = Some o /\ of_path o = q /\ of_mode o = MRead /\
    d_data (disk_after file_of k D) (file_of q) = d_data D (file_of q) /\ d_pos (disk_after file_of k D) (of_id o) = 0%nat.
Proof.
  intros Hq N. destruct (c18_standard_streams _ _ _ _ _ _ _ _ R E) as (S0 & _).
  destruct (S0 q Hq) as (o & Do & Po & Mo & G). exists o. split; [exact Do|]. split; [exact Po|]. split; [exact Mo|].
  rewrite descriptor_fd_get in Do. pose proof (new_opened 0%nat o Do G) as Op. split.
  - apply fold_kept. intros i p H. destruct (opens_listed i p MWrite H) as [[_ X]|[X _]]; [discriminate X|apply N, X].
  - apply fold_zero. right. eauto.
Qed.
(** No other file is touched before the start. *)
Lemma others_intact f D : (forall p, output_path c = Some p \/ error_path c = Some p -> file_of p <> f) ->
  d_data (disk_after file_of k D) f = d_data D f.
Proof.
  intros N. apply fold_kept. intros i p H. destruct (opens_listed i p MWrite H) as [[_ X]|[X _]]; [discriminate X|apply N, X].
Qed.
Lemma outputs_emptied q D : output_path c = Some q \/ error_path c = Some q -> d_data (disk_after file_of k D) (file_of q) = [].
Proof.
  intros H. destruct (c18_standard_streams _ _ _ _ _ _ _ _ R E) as (_ & S1 & S2 & _).
  destruct H as [H|H]; [destruct (S1 q H) as (o & Do & Po & Mo & G)|destruct (S2 q H) as (o & Do & Po & Mo & G)];
    rewrite descriptor_fd_get in Do; pose proof (new_opened _ o Do G) as Op; rewrite Mo, Po in Op; exact (fold_truncated _ _ (of_id o) q Op).
Qed.
End Started.
End FilesProofs.
