(** Invariants of the interleaving model of the timeout. *)
From Coq Require Import ZArith Bool List Lia ZifyBool.
From Verif.Base Require Import CInt CStr.
From Verif.Model Require Import Config Runner Timeout.
From Verif.Spec Require Import Verdict RunSpec TimeoutSpec.
Import ListNotations.
Open Scope Z_scope.

Lemma exec_app P s a b :
  exec P s (a ++ b) = match exec P s a with Some s' => exec P s' b | None => None end.
Proof. revert s; induction a as [|o a IH]; intros s; cbn; [reflexivity|]. destruct (step P s o); auto. Qed.

Lemma exec_snoc P s ops o s' :
  exec P s (ops ++ [o]) = Some s' ->
  exists s1, exec P s ops = Some s1 /\ step P s1 o = Some s'.
Proof.
  rewrite exec_app. destruct (exec P s ops) as [s1|]; [|discriminate]. cbn.
  destruct (step P s1 o) as [s2|] eqn:E; [|discriminate]. intros H. exists s1. split; congruence.
Qed.

(** Invariants are proved step by step, with a restriction on the operations. *)
Lemma exec_inv P (ok : op -> Prop) (I : tstate -> Prop) :
  (forall s o s', ok o -> I s -> step P s o = Some s' -> I s') ->
  forall ops s s', (forall o, In o ops -> ok o) -> I s -> exec P s ops = Some s' -> I s'.
Proof.
  intros H. induction ops as [|o ops IH]; intros s s' O Is E; cbn in E; [congruence|].
  destruct (step P s o) as [s1|] eqn:St; [|discriminate].
  apply (IH s1); [intros; apply O; right; assumption| |assumption].
  apply (H s o s1); auto. apply O. left. reflexivity.
Qed.

(** Computation on states only. *)
Ltac tcbn_in H :=
  cbn [mono wall ppc kpc cancel_req detached proc_st kill_pending recycled kids ubs kills t_fork
       set_ppc set_kpc set_proc set_cancel set_detached set_kids set_recycled add_ub set_clocks
       add_kill forked terminate do_kill do_cancel note_stale args_dead kl_who kl_time kl_target
       andb negb orb] in H.
Ltac tcbn :=
  cbn [mono wall ppc kpc cancel_req detached proc_st kill_pending recycled kids ubs kills t_fork
       set_ppc set_kpc set_proc set_cancel set_detached set_kids set_recycled add_ub set_clocks
       add_kill forked terminate do_kill do_cancel note_stale args_dead kl_who kl_time kl_target
       andb negb orb].
Ltac tcbn_all := repeat match goal with H : _ |- _ => progress tcbn_in H end; tcbn.

(** One [step], taken apart into its cases; [s] is destructed. *)
Ltac step_cases H :=
  match type of H with
  | step _ ?s ?o = Some ?s' =>
      let m := fresh "m" in let w := fresh "w" in let pp := fresh "pp" in let kk := fresh "kk" in
      let cr := fresh "cr" in let dt := fresh "dt" in let pr := fresh "pr" in let kp := fresh "kp" in
      let rc := fresh "rc" in let kd := fresh "kd" in let us := fresh "us" in let ks := fresh "ks" in
      let tf := fresh "tf" in
      destruct s as [m w pp kk cr dt pr kp rc kd us ks tf];
      destruct o; cbn [step] in H;
      unfold parent_step, parent_fail, parent_wait, killer_step, killer_fail, killer_junk,
             killer_cancel, alive, do_cancel, do_kill, note_stale, args_dead, terminate in H;
      tcbn_in H;
      repeat (match type of H with
             | context [match ?x with _ => _ end] =>
                 lazymatch x with
                 | context [match _ with _ => _ end] => fail
                 | _ => let E := fresh "E" in destruct x eqn:E; try discriminate H
                 end
             end; tcbn_in H);
      try discriminate H;
      apply (f_equal (fun x => match x with Some y => y | None => s' end)) in H;
      cbv beta iota in H; subst s'
  end.

Local Opaque judge error_result tv.

Section Inv.
Variable P : tparams.
Let T := max_real_time (p_config P).
Let q := (T + 1000) / 1000.
Variable Tpos : 1 <= T <= 2147482647.

Lemma q_bounds : 1000 * T + 1000 <= 1000000 * q <= 1000 * T + 1000000.
Proof. unfold q. pose proof (Z.div_mod (T + 1000) 1000). pose proof (Z.mod_pos_bound (T + 1000) 1000). lia. Qed.

Lemma sleep_seconds_val : sleep_seconds T = Val q.
Proof.
  unfold sleep_seconds, cbind, int_op, cdiv, cast_u32.
  replace (in_int (T + 1000)) with true.
  2:{ symmetry. unfold in_int, INT_MIN, INT_MAX. lia. }
  rewrite Z.quot_div_nonneg by lia. fold q. pose proof q_bounds.
  rewrite Z.mod_small; [reflexivity|]. unfold U32_MOD. lia.
Qed.

Lemma limited_true : limited_time P = true.
Proof. unfold limited_time, UNLIMITED. fold T. lia. Qed.

Definition clean (o : op) : Prop := o <> KillerFail /\ forall z, o <> KillerJunk z.

Definition inv_k (s : tstate) : Prop :=
  match kpc s with
  | KNone | KReturn | KDone | KCancelled => True
  | KStart => True
  | KGotPid p => p = p_pid P
  | KGot p t | KDetached p t => p = p_pid P /\ t = T
  | KSleep p u => p = p_pid P /\ t_fork s + 1000000 * q <= u
  | KWoke p => p = p_pid P /\ t_fork s + 1000000 * q <= mono s
  | KFailed p => False
  end.

Definition inv_early (s : tstate) : Prop :=
  match ppc s with
  | PStart | PFork _ => kpc s = KNone /\ kills s = [] /\ proc_st s = NotForked
  | PCreate _ | PKillCreate _ => kpc s = KNone /\ kills s = [] /\ t_fork s <= mono s /\ proc_st s <> NotForked
  | _ => kpc s <> KNone -> t_fork s <= mono s
  end.

Definition good_kill (m tf : Z) (k : kill_ev) : Prop :=
  kl_time k <= m /\
  (kl_who k = ByKiller -> tf + 1000000 * q <= kl_time k /\ forall p, kl_target k <> TPid p).

Definition inv (s : tstate) : Prop :=
  inv_k s /\ inv_early s /\ Forall (good_kill (mono s) (t_fork s)) (kills s).

Lemma inv_init m w : inv (init m w).
Proof. repeat split; constructor. Qed.

Lemma good_kill_mono m1 m2 tf ks :
  m1 <= m2 -> Forall (good_kill m1 tf) ks -> Forall (good_kill m2 tf) ks.
Proof.
  intros M G. eapply Forall_impl; [|exact G]. intros k (A & B). split; [lia|assumption].
Qed.

Lemma good_kill_snoc m tf ks w t :
  Forall (good_kill m tf) ks -> (w = ByKiller -> tf + 1000000 * q <= m /\ forall p, t <> TPid p) ->
  Forall (good_kill m tf) (ks ++ [mkKill w m t]).
Proof.
  intros G H. apply Forall_app. split; [assumption|]. constructor; [|constructor].
  split; cbn; [lia|assumption].
Qed.

Lemma inv_step s o s' : clean o -> inv s -> step P s o = Some s' -> inv s'.
Proof.
  intros C (K & E0 & G) H. unfold inv, inv_k, inv_early in *.
  pose proof q_bounds as Q. pose proof sleep_seconds_val as SV.
  step_cases H; tcbn_all; subst; tcbn_all.
  all: try (destruct C as [C1 C2]; congruence).
  all: try solve [destruct C as [C1 C2]; exfalso; eapply C2; reflexivity].
  all: split; [|split].
  all: try assumption.
  all: try (apply good_kill_snoc; [assumption|]; first [discriminate | intros _; split; [lia|congruence]]).
  all: try (eapply good_kill_mono; [|eassumption]; lia).
  all: try solve [intuition (try discriminate; try congruence; try lia)].
  all: try (destruct pp; solve [intuition (try discriminate; try congruence; try lia)]).
  - destruct E0 as (-> & _). exact I.
  - destruct E0 as (_ & -> & _). constructor.
  - destruct E0 as (-> & _). exact I.
  - destruct E0 as (_ & -> & _). constructor.
  - destruct K as [-> ->]. split; [reflexivity|].
    assert (a = q) as -> by congruence.
    destruct pp; intuition (try discriminate; try lia).
Qed.

Lemma inv_exec m w ops s :
  args_intact ops -> not_interrupted ops -> exec P (init m w) ops = Some s -> inv s.
Proof.
  intros A N E. apply (exec_inv P clean inv) with (ops := ops) (s := init m w); try assumption.
  - intros s1 o s2. apply inv_step.
  - intros o I. split; [intros ->; apply N; assumption|]. intros z ->. apply (A z). assumption.
  - apply inv_init.
Qed.

Lemma never_early m w ops s k :
  args_intact ops -> not_interrupted ops -> exec P (init m w) ops = Some s ->
  In k (kills s) -> kl_who k = ByKiller -> kl_time k > t_fork s + 1000 * T.
Proof.
  intros A N E I W. destruct (inv_exec _ _ _ _ A N E) as (_ & _ & G).
  rewrite Forall_forall in G. destruct (G k I) as (_ & H). specialize (H W).
  pose proof q_bounds. lia.
Qed.

(** ** Who was killed, and why *)

Definition intact (o : op) : Prop := forall z, o <> KillerJunk z.

Definition hk (w : who) (ks : list kill_ev) : Prop := exists k, In k ks /\ kl_who k = w.
Definition all_by_killer (ks : list kill_ev) : Prop := Forall (fun k => kl_who k = ByKiller) ks.
Definition all_judged (ks : list kill_ev) : Prop := Forall (fun k => kl_target k = TJudged) ks.
Definition no_pid (ks : list kill_ev) : Prop := Forall (fun k => forall p, kl_target k <> TPid p) ks.

Lemma hk_old w ks k : hk w ks -> hk w (ks ++ [k]).
Proof. intros (x & I & W). exists x. split; [apply in_or_app; left; assumption|assumption]. Qed.
Lemma hk_new w ks m t : hk w (ks ++ [mkKill w m t]).
Proof. eexists. split; [apply in_or_app; right; left; reflexivity|reflexivity]. Qed.
Lemma abk_new ks m t : all_by_killer ks -> all_by_killer (ks ++ [mkKill ByKiller m t]).
Proof. intros H. apply Forall_app. split; [assumption|]. constructor; [reflexivity|constructor]. Qed.
Lemma aj_new ks w m : all_judged ks -> all_judged (ks ++ [mkKill w m TJudged]).
Proof. intros H. apply Forall_app. split; [assumption|]. constructor; [reflexivity|constructor]. Qed.
Lemma np_new ks w m t : no_pid ks -> (forall p, t <> TPid p) -> no_pid (ks ++ [mkKill w m t]).
Proof. intros H N. apply Forall_app. split; [assumption|]. constructor; [exact N|constructor]. Qed.
Lemma snoc_not_nil (ks : list kill_ev) k : ks ++ [k] <> [].
Proof. destruct ks; discriminate. Qed.

Definition inv_pid (s : tstate) : Prop :=
  match kpc s with
  | KGotPid p | KSleep p _ | KFailed p | KWoke p => p = p_pid P
  | KGot p t | KDetached p t => p = p_pid P /\ t = T
  | _ => True
  end.

Definition inv_fired (s : tstate) : Prop :=
  (kpc s = KReturn \/ kpc s = KDone -> hk ByKiller (kills s)) /\
  (In UbStaleThread (ubs s) -> hk ByKiller (kills s)) /\
  ~ In UbOverflow (ubs s).

Definition inv_fork (s : tstate) : Prop :=
  (proc_st s = NotForked -> kills s = [] /\ kpc s = KNone /\
     (ppc s = PStart \/ (exists w, ppc s = PFork w) \/ ppc s = PReturned (error_result FORK_FAILED))) /\
  match ppc s with
  | PStart | PFork _ => kpc s = KNone /\ kills s = [] /\ proc_st s = NotForked
  | PCreate _ | PKillCreate _ => kpc s = KNone /\ kills s = []
  | _ => True
  end.

Definition inv_target (s : tstate) : Prop :=
  no_pid (kills s) /\
  (proc_st s <> Reaped -> all_judged (kills s)) /\
  (alive s = true -> kills s <> [] -> kill_pending s = true).

Definition judged_result (r : cres result) : Prop :=
  exists st ru w e, r = judge (p_config P) st ru (tv w) (tv e).

Definition inv_parent (s : tstate) : Prop :=
  match ppc s with
  | PReturned r =>
      (r = error_result FORK_FAILED /\ proc_st s = NotForked) \/
      (r = error_result PTHREAD_FAILED /\ hk ByParent (kills s)) \/
      (r = error_result WAIT_FAILED /\ hk ByParent (kills s)) \/
      (judged_result r /\ all_by_killer (kills s))
  | _ => all_by_killer (kills s)
  end.

Ltac junk C := try solve [exfalso; eapply C; reflexivity].

Lemma inv_pid_step s o s' : intact o -> inv_pid s -> step P s o = Some s' -> inv_pid s'.
Proof.
  intros C K H. unfold inv_pid in *.
  step_cases H; tcbn_all; subst; tcbn_all; junk C; try assumption; try exact I; try tauto; intuition.
Qed.

Lemma inv_fork_step s o s' : inv_fork s -> step P s o = Some s' -> inv_fork s'.
Proof.
  intros (F & E0) H. unfold inv_fork in *.
  step_cases H; tcbn_all; subst; tcbn_all.
  all: split; [intros N; try discriminate N; try (specialize (F N))|].
  all: intuition (try discriminate; try congruence; eauto).
  all: try solve [match goal with H : exists _, _ = _ |- _ => destruct H; discriminate end].
  all: try solve [destruct pp; intuition (try discriminate; try congruence; eauto)].
Qed.

Lemma inv_fired_step s o s' :
  intact o -> inv_pid s -> inv_fired s -> step P s o = Some s' -> inv_fired s'.
Proof.
  intros C K (F1 & F2 & F3) H. unfold inv_fired, inv_pid in *. pose proof sleep_seconds_val as SV.
  step_cases H; tcbn_all; subst; tcbn_all; junk C.
  all: try match type of K with _ /\ _ => destruct K as [-> ->]; rewrite SV in *; try discriminate end.
  all: split; [|split]; try assumption.
  all: try (intros [Z|Z]; discriminate Z).
  all: try (intros _; apply F1; auto; fail).
  all: try (intros _; apply hk_new).
  all: try (intros Z; apply hk_old; auto; fail).
  all: try (intros Z; apply in_app_or in Z; destruct Z as [Z|[Z|[]]]; try discriminate Z; auto).
Qed.

Lemma inv_target_step s o s' :
  intact o -> inv_pid s -> inv_fork s -> inv_target s -> step P s o = Some s' -> inv_target s'.
Proof.
  intros C K (F & F2) (T1 & T2 & T3) H. unfold inv_target, inv_pid, alive in *.
  step_cases H; tcbn_all; subst; tcbn_all; junk C.
  all: repeat match goal with
         | E : (?a =? ?a) = false |- _ => rewrite Z.eqb_refl in E; discriminate E
         end.
  all: split; [|split].
  all: try assumption.
  all: try (apply np_new; [assumption|discriminate]).
  all: try (intros N; apply aj_new; apply T2; first [discriminate|assumption]).
  all: try (intros N; exfalso; congruence).
  all: try (intros; apply T2; discriminate).
  all: try (intros; reflexivity).
  all: try (intros; discriminate).
  all: try (intros; auto; fail).
  all: try (destruct F2 as (_ & -> & _); intros; first [constructor|congruence]).
  all: exfalso; destruct (F eq_refl) as (_ & X & [Y|[[? Y]|Y]]); congruence.
Qed.

Definition ret_ok (pr : proc) (ks : list kill_ev) (r : cres result) : Prop :=
  (r = error_result FORK_FAILED /\ pr = NotForked) \/
  (r = error_result PTHREAD_FAILED /\ hk ByParent ks) \/
  (r = error_result WAIT_FAILED /\ hk ByParent ks) \/
  (judged_result r /\ all_by_killer ks).
Lemma ret_ok_new pr pr' ks m t r :
  ret_ok pr ks r -> pr <> NotForked -> ret_ok pr' (ks ++ [mkKill ByKiller m t]) r.
Proof.
  intros [[_ A]|[[A B]|[[A B]|[A B]]]] N; [congruence| | |]; unfold ret_ok.
  - right; left. split; [assumption|apply hk_old; assumption].
  - right; right; left. split; [assumption|apply hk_old; assumption].
  - right; right; right. split; [assumption|apply abk_new; assumption].
Qed.
Lemma ret_ok_proc pr pr' ks r : ret_ok pr ks r -> pr <> NotForked -> ret_ok pr' ks r.
Proof. intros [[_ A]|[A|[A|A]]] N; [congruence| | |]; unfold ret_ok; tauto. Qed.

Definition par_ok (pp : parent) (pr : proc) (ks : list kill_ev) : Prop :=
  match pp with PReturned r => ret_ok pr ks r | _ => all_by_killer ks end.
Lemma par_ok_new pp pr pr' ks m t :
  par_ok pp pr ks -> pr <> NotForked -> par_ok pp pr' (ks ++ [mkKill ByKiller m t]).
Proof.
  intros A N. destruct pp; cbn in A |- *; try (apply abk_new; exact A).
  eapply ret_ok_new; eassumption.
Qed.
Lemma par_ok_proc pp pr pr' ks : par_ok pp pr ks -> pr <> NotForked -> par_ok pp pr' ks.
Proof. intros A N. destruct pp; cbn in A |- *; try exact A. eapply ret_ok_proc; eassumption. Qed.

Lemma inv_parent_step s o s' :
  intact o -> inv_fork s -> inv_parent s -> step P s o = Some s' -> inv_parent s'.
Proof.
  intros C (F & F2) A H. change (par_ok (ppc s) (proc_st s) (kills s)) in A.
  change (par_ok (ppc s') (proc_st s') (kills s')).
  step_cases H; tcbn_all; subst; tcbn_all; junk C; try exact A.
  all: try (right; left; split; [reflexivity|]; apply hk_new).
  all: try (right; right; left; split; [reflexivity|]; apply hk_new).
  all: try (right; right; right; split; [do 4 eexists; reflexivity|exact A]).
  all: try (left; split; [reflexivity|]; apply F2).
  all: try (eapply par_ok_proc; [exact A|congruence]).
  all: eapply par_ok_new; [exact A|].
  all: intros N; destruct (F N) as (_ & X & _); congruence.
Qed.

Lemma intact_exec m w ops s :
  args_intact ops -> exec P (init m w) ops = Some s ->
  inv_pid s /\ inv_fork s /\ inv_fired s /\ inv_target s /\ inv_parent s.
Proof.
  intros A E.
  apply (exec_inv P intact (fun s => inv_pid s /\ inv_fork s /\ inv_fired s /\ inv_target s /\ inv_parent s))
    with (ops := ops) (s := init m w); try assumption.
  - intros s1 o s2 I (I1 & I2 & I3 & I4 & I5) St. split; [|split; [|split; [|split]]].
    + eapply inv_pid_step; eassumption.
    + eapply inv_fork_step; eassumption.
    + eapply inv_fired_step; eassumption.
    + eapply inv_target_step; eassumption.
    + eapply inv_parent_step; eassumption.
  - intros o I z ->. apply (A z). assumption.
  - unfold inv_pid, inv_fork, inv_fired, inv_target, inv_parent, no_pid, all_judged, all_by_killer, alive. cbn.
    intuition (try discriminate; try constructor).
Qed.

(** ** Cancelled in time *)

Definition quiet (s : tstate) : Prop :=
  cancel_req s = true /\ kills s = [] /\ (exists r, ppc s = PReturned r) /\
  match kpc s with
  | KNone | KStart | KGotPid _ | KGot _ _ | KDetached _ _ | KCancelled => True
  | _ => False
  end.

Lemma quiet_step s o s' : clean o -> quiet s -> step P s o = Some s' -> quiet s'.
Proof.
  intros C (R & G & (r & N) & K) H. unfold quiet in *.
  step_cases H; tcbn_all; subst; tcbn_all; try congruence; try contradiction.
  all: try (destruct C as [C1 C2]; congruence).
  all: try solve [exfalso; destruct C as [C1 C2]; eapply C2; reflexivity].
  all: repeat split; try congruence; try assumption; try exact I; try (eexists; reflexivity).
Qed.

Lemma app_ops {A} (pre post : list A) o : pre ++ o :: post = (pre ++ [o]) ++ post.
Proof. rewrite <- app_assoc. reflexivity. Qed.

(** The parent cancels the thread no later than T ms after the fork: nobody is
    ever killed. *)
Lemma cancelled_in_time m w pre post s1 s :
  args_intact (pre ++ Parent :: post) -> not_interrupted (pre ++ Parent :: post) ->
  exec P (init m w) pre = Some s1 ->
  (exists w e st ru, ppc s1 = PCancel w e st ru) ->
  mono s1 <= t_fork s1 + 1000 * T ->
  exec P (init m w) (pre ++ Parent :: post) = Some s -> kills s = [].
Proof.
  intros A N E1 (w0 & e & st & ru & Pc) Le E.
  assert (args_intact pre) as A1 by (intros z I; apply (A z), in_or_app; left; assumption).
  assert (not_interrupted pre) as N1 by (intros I; apply N, in_or_app; left; assumption).
  destruct (inv_exec _ _ _ _ A1 N1 E1) as (K & _ & G).
  destruct (intact_exec _ _ _ _ A1 E1) as (_ & _ & (F1 & _ & _) & _ & Pa).
  pose proof q_bounds as Q.
  assert (kills s1 = []) as K0.
  { unfold inv_parent in Pa. rewrite Pc in Pa. destruct (kills s1) as [|k l]; [reflexivity|].
    exfalso. inversion_clear G as [|? ? [G1 G2] _]. inversion_clear Pa as [|? ? W _].
    specialize (G2 W). lia. }
  rewrite exec_app, E1 in E. cbn [exec] in E.
  destruct (step P s1 Parent) as [s2|] eqn:St; [|discriminate].
  assert (quiet s2) as Qs.
  { cbn [step] in St. unfold parent_step in St. rewrite Pc, limited_true in St.
    apply (f_equal (fun x => match x with Some y => y | None => s2 end)) in St. cbv beta iota in St. subst s2.
    unfold do_cancel, inv_k in *.
    destruct s1 as [a b pp kk cr dt pr kp rc kd us ks tf]. tcbn_all. subst.
    destruct kk; tcbn_all; try contradiction.
    all: try (destruct K as [-> K]).
    all: try (replace (a <? until) with true by lia).
    all: try (exfalso; lia).
    all: try (destruct (F1 (or_introl eq_refl)) as (k & [] & _)).
    all: try (destruct (F1 (or_intror eq_refl)) as (k & [] & _)).
    all: repeat split; try exact I; eexists; reflexivity. }
  assert (quiet s) as (_ & R & _); [|exact R].
  apply (exec_inv P clean quiet) with (ops := post) (s := s2); try assumption.
  - intros; eapply quiet_step; eassumption.
  - intros o I. split.
    + intros ->. apply N, in_or_app. right. right. assumption.
    + intros z ->. apply (A z), in_or_app. right. right. assumption.
Qed.
End Inv.
