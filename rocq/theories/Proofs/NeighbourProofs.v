From Coq Require Import ZArith Bool List String Lia.
From Verif.Base Require Import CInt CStr.
From Verif.Model Require Import Config Runner Seccomp Child Program Neighbours.
From Verif.Spec Require Import Verdict RunSpec Syscalls SandboxSpec Samples ChildSamples ContainSpec ContainSamples NeighbourSpec.
From Verif.Proofs Require Import SeccompProofs ChildClaims ProgramProofs RunnerClaims ContainSampleFacts.
Import ListNotations.
Open Scope list_scope.
Open Scope Z_scope.

(** ** The identity of programs *)
Definition idp (u : Z) (P : proc) : Prop := u <> 0 /\ p_nnp P = true /\ exists g gs, ids_are u g gs (p_cred P).

Lemma program_idp w p u P : program_as w p u -> w p = Some (inl P) -> idp u P.
Proof.
  intros (P' & c & ptr & H & J & (U1 & U2 & U3) & N & <-) H'. assert (P' = P) as -> by congruence.
  destruct (judged_facts c ptr P J (conj U1 (conj U2 U3)) N) as (_ & F2 & _).
  split; [exact U1|]. split; [exact F2|]. exists (gid c), [gid c].
  destruct J as (env & log & k0 & path & a & v & k & Rd & U & L & E & _ & ->).
  destruct (c20_privileges _ _ _ _ _ _ _ _ Rd U E) as ((Dg & Du) & _). destruct (Du U2) as (D1 & D2 & D3).
  destruct (Dg U3) as (D4 & D5 & D6 & D7). repeat split; assumption.
Qed.

(** [id] gives the users of the programs that make calls. *)
Definition ginv (id : nat -> Z -> Prop) (w : world) : Prop :=
  forall p u P, id p u -> w p = Some (inl P) -> idp u P.

Lemma denied_step w p P sc w' : w p = Some (inl P) -> filters_action (p_filters P) sc <> ActAllow -> step w (Calls p sc) w' ->
  w' = w \/ w' = put w p (killed_thread P).
Proof.
  intros H A S. inversion S as [p1 P1 sc1 w1 H1 A1 E1 X1 X2|p1 P1 sc1 e1 H1 A1 X1 X2|p1 P1 sc1 H1 A1 X1 X2|]; subst.
  - congruence.
  - now left.
  - right. congruence.
Qed.

Lemma step_idp w e w' p u P' : step w e w' -> (forall q sc, e = Calls q sc -> In (sc_name sc) modelled) ->
  (forall P, w p = Some (inl P) -> idp u P) -> w' p = Some (inl P') -> idp u P'.
Proof.
  intros S M K H'. destruct (step_was w e w' p P' S M H') as (P & H). destruct (K P H) as (U & N & g & gs & D).
  destruct (step_ids w e w' p P P' u g gs U S M H N D H') as (N' & D'). split; [exact U|]. split; [exact N'|]. now exists g, gs.
Qed.

Lemma nstep_ginv id w e w' : ginv id w -> nstep w e w' -> ginv id w'.
Proof.
  intros I S p u P' Hid H'. destruct S as [q sc w' M S|q Q sc w' Hq A S|q Q sc w' Hq M A D|q sig w' S].
  - apply (step_idp w _ w' p u P' S); [|exact (fun P => I p u P Hid)|exact H']. intros q' sc' [= <- <-]. exact M.
  - destruct (denied_step w q Q sc w' Hq A S) as [-> | ->]; [exact (I p u P' Hid H')|].
    unfold put in H'. destruct (Nat.eqb_spec p q) as [->|Ne]; [|exact (I p u P' Hid H')].
    unfold killed_thread in H'. destruct (Nat.leb _ _); [discriminate|]. injection H' as <-.
    exact (I q u Q Hid Hq).
  - destruct (D p) as [X|(Q' & _ & _ & _ & _ & X)]; [|congruence]. apply (I p u P' Hid). congruence.
  - apply (step_idp w _ w' p u P' S); [discriminate|exact (fun P => I p u P Hid)|exact H'].
Qed.

Lemma idp_privileged u P : idp u P -> privileged P = false.
Proof. intros (U & _ & g & gs & (_ & E & _)). unfold privileged. rewrite E. now apply Z.eqb_neq. Qed.

Lemma idp_signal u P Q : idp u P -> may_signal P Q = true -> u = ruid (p_cred Q) \/ u = suid (p_cred Q).
Proof.
  intros D H. unfold may_signal in H. rewrite (idp_privileged u P D) in H. destruct D as (U & _ & g & gs & (R & E & _)).
  rewrite R, E in H. rewrite !orb_true_iff, !Z.eqb_eq in H. cbn in H. intuition congruence.
Qed.

Lemma idp_limit u P Q : idp u P -> may_limit P Q = true -> u = ruid (p_cred Q).
Proof.
  intros D H. unfold may_limit in H. rewrite (idp_privileged u P D) in H. destruct D as (U & _ & g & gs & (R & E & _)).
  rewrite R in H. cbn in H. rewrite !andb_true_iff, !Z.eqb_eq in H. lia.
Qed.

(** ** What a call of another program does to a process *)
Lemma nstep_other id w p sc w' q Q u : ginv id w -> nstep w (Calls p sc) w' -> id p u -> p <> q ->
  w q = Some (inl Q) -> u <> ruid (p_cred Q) -> u <> suid (p_cred Q) -> w' q = w q.
Proof.
  intros I S Hid Ne HQ N1 N2.
  inversion S as [p1 sc1 w1 M S1 X1 X2|p1 P sc1 w1 Hp A S1 X1 X2|p1 P sc1 w1 Hp M A D X1 X2|]; subst.
  - inversion S1 as [p1 P sc1 w1 Hp A Ex X1 X2|p1 P sc1 e1 Hp A X1 X2|p1 P sc1 Hp A X1 X2|]; subst.
    + destruct Ex as [|flags path id' n Hn Hf|old new d Hn Hf|n Hn|q' Q' r soft hard Hn Hr Hq HQ' Hm Hs' Hh
                   |fds c Hn Hf Hc|c Hn Hi|Hn|Hn|w' Hn]; try contradiction; try reflexivity;
        try (unfold put; destruct (Nat.eqb_spec q p); [congruence|reflexivity]).
      unfold put. destruct (Nat.eqb_spec q q') as [->|]; [|reflexivity]. exfalso. destruct Hm as [->|Hm]; [congruence|].
      apply N1. assert (Q' = Q) as -> by congruence. exact (idp_limit u P Q (I p u P Hid Hp) Hm).
    + reflexivity.
    + unfold put. destruct (Nat.eqb_spec q p); [congruence|reflexivity].
  - destruct (denied_step w p P sc w' Hp A S1) as [-> | ->]; [reflexivity|].
    unfold put. destruct (Nat.eqb_spec q p); [congruence|reflexivity].
  - destruct (D q) as [X|(Q' & X & _ & Y & _)]; [exact X|]. exfalso. assert (Q' = Q) as -> by congruence.
    destruct (idp_signal u P Q (I p u P Hid Hp) Y); contradiction.
Qed.

Lemma ended_stays w e w' q E : nstep w e w' -> w q = Some (inr E) -> w' q = w q.
Proof.
  intros S H. assert (P1 : forall v p P s, v p = Some (inl P) -> v q = Some (inr E) -> put v p s q = v q).
  { intros v p P s X Y. unfold put. destruct (Nat.eqb_spec q p) as [->|]; [congruence|reflexivity]. }
  assert (St : forall v e v', step v e v' -> (forall p sc, e = Calls p sc -> In (sc_name sc) modelled \/ (exists P, v p = Some (inl P) /\ filters_action (p_filters P) sc <> ActAllow)) ->
    v q = Some (inr E) -> v' q = v q).
  { clear -P1. intros v e v' S M H. destruct S as [p P sc v' Hp Ha Ex|p P sc er Hp Ha|p P sc Hp Ha|p P sig Hp].
    - destruct (M p sc eq_refl) as [M'|(P' & X & Y)]; [|congruence].
      destruct Ex; try contradiction; try reflexivity; eapply P1; eassumption.
    - reflexivity.
    - eapply P1; eassumption.
    - eapply P1; eassumption. }
  destruct S as [p sc w' M S|p P sc w' Hp A S|p P sc w' Hp M A D|p sig w' S].
  - apply (St w _ w' S); [|exact H]. intros p' sc' [= <- <-]. now left.
  - apply (St w _ w' S); [|exact H]. intros p' sc' [= <- <-]. right. now exists P.
  - destruct (D q) as [X|(Q & X & _)]; [exact X|congruence].
  - apply (St w _ w' S); [discriminate|exact H].
Qed.

Lemma none_stays w e w' q : nstep w e w' -> w q = None -> w' q = w q.
Proof.
  intros S H. assert (P1 : forall v p P s, v p = Some (inl P) -> v q = None -> put v p s q = v q).
  { intros v p P s X Y. unfold put. destruct (Nat.eqb_spec q p) as [->|]; [congruence|reflexivity]. }
  assert (St : forall v e v', step v e v' -> (forall p sc, e = Calls p sc -> In (sc_name sc) modelled \/ (exists P, v p = Some (inl P) /\ filters_action (p_filters P) sc <> ActAllow)) ->
    v q = None -> v' q = v q).
  { clear -P1. intros v e v' S M H. destruct S as [p P sc v' Hp Ha Ex|p P sc er Hp Ha|p P sc Hp Ha|p P sig Hp].
    - destruct (M p sc eq_refl) as [M'|(P' & X & Y)]; [|congruence].
      destruct Ex; try contradiction; try reflexivity; eapply P1; eassumption.
    - reflexivity.
    - eapply P1; eassumption.
    - eapply P1; eassumption. }
  destruct S as [p sc w' M S|p P sc w' Hp A S|p P sc w' Hp M A D|p sig w' S].
  - apply (St w _ w' S); [|exact H]. intros p' sc' [= <- <-]. now left.
  - apply (St w _ w' S); [|exact H]. intros p' sc' [= <- <-]. right. now exists P.
  - destruct (D q) as [X|(Q & X & _)]; [exact X|congruence].
  - apply (St w _ w' S); [discriminate|exact H].
Qed.

Lemma nstep_hit w p sig w' q : nstep w (Hit p sig) w' -> p <> q -> w' q = w q.
Proof.
  intros S Ne. inversion S as [| | |p1 s1 w1 S1 X1 X2]; subst. inversion S1; subst.
  unfold put. destruct (Nat.eqb_spec q p); [congruence|reflexivity].
Qed.

Lemma ginv_start w : ginv (program_as w) w.
Proof. intros p u P A H. exact (program_idp w p u P A H). Qed.

(** Processes of other users are left alone. *)
Lemma untouched w evs w' q Q : w q = Some (inl Q) ->
  callers w evs (fun u => u <> ruid (p_cred Q) /\ u <> suid (p_cred Q)) -> not_hit q evs -> nruns w evs w' ->
  w' q = Some (inl Q).
Proof.
  intros H0 C Nh R.
  assert (Nq : forall u, program_as w q u -> u = ruid (p_cred Q)).
  { intros u A. destruct (program_idp w q u Q A H0) as (_ & _ & g & gs & (X & _)). congruence. }
  assert (K : forall v evs v', nruns v evs v' -> ginv (program_as w) v ->
    callers w evs (fun u => u <> ruid (p_cred Q) /\ u <> suid (p_cred Q)) -> not_hit q evs -> v q = Some (inl Q) -> v' q = Some (inl Q)).
  { clear evs w' C Nh R. intros v evs v' R. induction R as [v|v e v1 evs v2 S R IH]; intros I C Nh H; [exact H|].
    apply IH.
    - exact (nstep_ginv _ v e v1 I S).
    - intros p sc X. exact (C p sc (or_intror X)).
    - intros sig X. exact (Nh sig (or_intror X)).
    - destruct e as [p sc|p sig].
      + destruct (C p sc (or_introl eq_refl)) as (u & A & N1 & N2).
        assert (p <> q) by (intros ->; apply N1, Nq, A).
        rewrite (nstep_other _ v p sc v1 q Q u I S A); assumption.
      + assert (p <> q) by (intros ->; exact (Nh sig (or_introl eq_refl))). rewrite (nstep_hit v p sig v1 q S); assumption. }
  exact (K w evs w' R (ginv_start w) C Nh H0).
Qed.

(** A program with a user of its own is in the state in which its own calls alone would have put it. *)
Lemma own_nstep v e v' q x : nstep v e v' -> of_proc q e = true -> x q = v q -> exists x', nstep x e x' /\ x' q = v' q.
Proof.
  intros S Of Eq. destruct S as [p sc v' M S|p P sc v' Hp A S|p P sc v' Hp M A D|p sig v' S]; cbn in Of; apply Nat.eqb_eq in Of; subst p.
  - inversion S as [p1 P sc1 w1 Hp Ha Ex X1 X2|p1 P sc1 e1 Hp Ha X1 X2|p1 P sc1 Hp Ha X1 X2|]; subst.
    + rewrite Hp in Eq.
      destruct Ex as [|flags path id n Hn Hf|old new d Hn Hf|n Hn|q' Q r soft hard Hn Hr Hq HQ Hm Hs Hh
                   |fds c Hn Hf Hc|c Hn Hi|Hn|Hn|w' Hn].
      * exists x. split; [|congruence]. apply n_call; [exact M|]. eapply step_allowed; [eassumption|exact Ha|apply ex_none].
      * eexists. split; [apply n_call; [exact M|]; eapply step_allowed; [eassumption|exact Ha|eapply ex_open; eassumption]|]. rewrite !put_same. reflexivity.
      * eexists. split; [apply n_call; [exact M|]; eapply step_allowed; [eassumption|exact Ha|eapply ex_dup; eassumption]|]. rewrite !put_same. reflexivity.
      * eexists. split; [apply n_call; [exact M|]; eapply step_allowed; [eassumption|exact Ha|eapply ex_close; eassumption]|]. rewrite !put_same. reflexivity.
      * destruct (Nat.eq_dec q' q) as [->|N].
        -- assert (Q = P) as -> by congruence.
           eexists. split; [apply n_call; [exact M|]; eapply step_allowed; [eassumption|exact Ha|eapply (ex_prlimit _ _ _ _ q P r soft hard); try eassumption]|].
           rewrite !put_same. reflexivity.
        -- exists x. split; [apply n_call; [exact M|]; eapply step_allowed; [eassumption|exact Ha|apply ex_none]|].
           unfold put. destruct (Nat.eqb_spec q q'); [congruence|]. congruence.
      * eexists. split; [apply n_call; [exact M|]; eapply step_allowed; [eassumption|exact Ha|eapply ex_execve; eassumption]|]. rewrite !put_same. reflexivity.
      * eexists. split; [apply n_call; [exact M|]; eapply step_allowed; [eassumption|exact Ha|eapply ex_ids; eassumption]|]. rewrite !put_same. reflexivity.
      * eexists. split; [apply n_call; [exact M|]; eapply step_allowed; [eassumption|exact Ha|eapply ex_exit; eassumption]|]. rewrite !put_same. reflexivity.
      * eexists. split; [apply n_call; [exact M|]; eapply step_allowed; [eassumption|exact Ha|eapply ex_thread; eassumption]|]. rewrite !put_same. reflexivity.
      * contradiction.
    + exists x. split; [|exact Eq]. apply n_call; [exact M|]. eapply step_errno; [rewrite Eq; exact Hp|exact Ha].
    + eexists. split; [apply n_call; [exact M|]; eapply step_killed; [rewrite Eq; exact Hp|exact Ha]|]. rewrite !put_same. reflexivity.
  - inversion S as [p1 P1 sc1 w1 Hp1 Ha Ex X1 X2|p1 P1 sc1 e1 Hp1 Ha X1 X2|p1 P1 sc1 Hp1 Ha X1 X2|]; subst; [congruence| |].
    + exists x. split; [|exact Eq]. eapply n_denied; [rewrite Eq; exact Hp|exact A|]. eapply step_errno; [rewrite Eq; exact Hp1|exact Ha].
    + eexists. split; [eapply n_denied; [rewrite Eq; exact Hp|exact A|]; eapply step_killed; [rewrite Eq; exact Hp1|exact Ha]|]. rewrite !put_same. reflexivity.
  - exists (fun r => if Nat.eqb r q then v' q else x r). rewrite Nat.eqb_refl. split; [|reflexivity].
    apply (n_signal x q P sc); [congruence|exact M|exact A|]. intros r. destruct (Nat.eqb_spec r q) as [->|Ne]; [|now left].
    destruct (D q) as [X|(Q & X1 & X2 & X3 & X4 & X5)]; [left; congruence|]. right. exists Q. rewrite Eq. auto.
  - inversion S as [| | |p1 P sig1 Hp]; subst. eexists. split; [apply n_hit; eapply step_hit; rewrite Eq; exact Hp|].
    rewrite !put_same. reflexivity.
Qed.

Lemma alone w evs w' q u : program_as w q u -> callers w evs (fun _ => True) ->
  (forall p, p <> q -> ~ program_as w p u) -> nruns w evs w' ->
  exists x, nruns w (List.filter (of_proc q) evs) x /\ x q = w' q.
Proof.
  intros Aq C Own R.
  assert (K : forall v evs v', nruns v evs v' -> ginv (program_as w) v -> callers w evs (fun _ => True) ->
    forall x, x q = v q -> exists x', nruns x (List.filter (of_proc q) evs) x' /\ x' q = v' q).
  { clear evs w' C R. intros v evs v' R. induction R as [v|v e v1 evs v2 S R IH]; intros I C x Eq.
    - exists x. split; [constructor|exact Eq].
    - assert (C' : callers w evs (fun _ => True)) by (intros p sc X; exact (C p sc (or_intror X))).
      specialize (IH (nstep_ginv _ v e v1 I S) C'). cbn [List.filter]. destruct (of_proc q e) eqn:Of.
      + destruct (own_nstep v e v1 q x S Of Eq) as (x1 & S1 & E1). destruct (IH x1 E1) as (x' & R' & E').
        exists x'. split; [econstructor; eassumption|exact E'].
      + apply IH. rewrite Eq. destruct e as [p sc|p sig]; cbn in Of; apply Nat.eqb_neq in Of.
        * destruct (C p sc (or_introl eq_refl)) as (u' & A & _). 
          assert (u' <> u) by (intros ->; exact (Own p Of A)).
          destruct (v q) as [[Q|E]|] eqn:HQ.
          -- destruct (I q u Q Aq HQ) as (_ & _ & g & gs & (X1 & _ & X2 & _)).
             rewrite (nstep_other _ v p sc v1 q Q u' I S A Of HQ); congruence.
          -- rewrite (ended_stays v (Calls p sc) v1 q E S HQ). congruence.
          -- rewrite (none_stays v (Calls p sc) v1 q S HQ). congruence.
        * symmetry. exact (nstep_hit v p sig v1 q S Of). }
  exact (K w evs w' R (ginv_start w) C w eq_refl).
Qed.

(** Under c_cpp and c_cpp_file_io there are no signals. *)
Lemma no_signals w evs w' : all_started w -> nruns w evs w' -> runs w evs w'.
Proof.
  intros A R. assert (C : forall p s, w p = Some s -> exists P, s = inl P /\ confined P) by (intros; eapply started_confined; eassumption).
  assert (K : forall v evs v', nruns v evs v' -> inv w v -> runs v evs v').
  { clear evs w' R. intros v evs v' R. induction R as [v|v e v1 evs v2 S R IH]; intros I; [constructor|].
    assert (S' : step v e v1).
    { destruct S as [p sc v1 M S|p P sc v1 Hp Ac S|p P sc v1 Hp M Ac D|p sig v1 S]; try exact S. exfalso.
      pose proof (I p) as Ip. rewrite Hp in Ip. destruct Ip as (P0 & H0 & (_ & _ & F & _) & _).
      destruct (C p _ H0) as (P0' & X & Cf). injection X as <-. rewrite F in Ac.
      cbn in M. repeat destruct M as [M|M]; try contradiction; symmetry in M; exact (allowed_not P0 sc _ Cf Ac M eq_refl). }
    econstructor; [exact S'|]. apply IH. exact (step_inv w v e v1 C I S'). }
  exact (K w evs w' R (inv_start w C)).
Qed.
