(** Remaining facts about the executions of run() with its timeout thread. *)
From Coq Require Import ZArith Bool List Lia ZifyBool.
From Verif.Base Require Import CInt CStr.
From Verif.Model Require Import Config Runner Timeout.
From Verif.Spec Require Import Verdict RunSpec TimeoutSpec Samples.
From Verif.Proofs Require Import RunnerProofs RunnerClaims TimeoutProofs TimeoutReport TimeoutTimed.
Import ListNotations.
Open Scope Z_scope.

Lemma judge_error c st ru a b r : judge c st ru a b = Val r -> error r = 0.
Proof.
  unfold judge. destruct (real_time_ms a b); cbn; [|discriminate].
  destruct (_ =? SIGUSR1); [intros H; injection H as <-; reflexivity|].
  destruct (cpu_time_ms ru); cbn; [|discriminate].
  destruct (memory_bytes ru); cbn; [|discriminate].
  intros H; injection H as <-; reflexivity.
Qed.

Local Opaque judge tv wait_status.

(** ** C12 *)
Lemma error_result_code a b : error_result a = error_result b -> a = b.
Proof. unfold error_result. congruence. Qed.

Lemma c12_interleaved P m w ops s r :
  1 <= max_real_time (p_config P) <= 2147482647 ->
  args_intact ops -> exec P (init m w) ops = Some s -> returned s r ->
  (error r = FORK_FAILED -> proc_st s = NotForked /\ kills s = []) /\
  (error r = PTHREAD_FAILED \/ error r = WAIT_FAILED ->
     (exists k, In k (kills s) /\ kl_who k = ByParent) /\
     (proc_st s <> Reaped -> forall k, In k (kills s) -> kl_target k = TJudged) /\
     (alive s = true -> kill_pending s = true)).
Proof.
  intros Tp A E R. destruct (intact_exec P Tp m w ops s A E) as (_ & (F & _) & _ & (_ & T2 & T3) & Pa).
  unfold inv_parent in Pa. unfold returned in R. rewrite R in Pa.
  assert (forall code, Val r = error_result code -> error r = code) as Ec.
  { unfold error_result. intros code X. assert (r = mkResult 0 0 0 0 0 code SUCCESS) as -> by congruence. reflexivity. }
  destruct Pa as [[X Y]|[[X Y]|[[X Y]|[(st & ru & a & b & X) Y]]]].
  - apply Ec in X. split; [intros _; split; [assumption|apply F; assumption]|].
    intros [Z|Z]; rewrite X in Z; discriminate Z.
  - apply Ec in X. split; [intros Z; rewrite X in Z; discriminate Z|]. intros _.
    destruct Y as (k & I & K). split; [eauto|]. split.
    + intros N. specialize (T2 N). unfold all_judged in T2. rewrite Forall_forall in T2. exact T2.
    + intros Al. apply T3; [assumption|]. intros N. rewrite N in I. destruct I.
  - apply Ec in X. split; [intros Z; rewrite X in Z; discriminate Z|]. intros _.
    destruct Y as (k & I & K). split; [eauto|]. split.
    + intros N. specialize (T2 N). unfold all_judged in T2. rewrite Forall_forall in T2. exact T2.
    + intros Al. apply T3; [assumption|]. intros N. rewrite N in I. destruct I.
  - symmetry in X. apply judge_error in X. split; [intros Z|intros [Z|Z]]; rewrite X in Z; discriminate Z.
Qed.

(** ** C17 *)
Lemma c17_timeout P m w ops s :
  1 <= max_real_time (p_config P) <= 2147482647 ->
  args_intact ops -> exec P (init m w) ops = Some s -> ~ In UbOverflow (ubs s).
Proof.
  intros Tp A E. destruct (intact_exec P Tp m w ops s A E) as (_ & _ & (_ & _ & F) & _). exact F.
Qed.

(** ** Without a real time limit there is no timeout thread *)
Definition no_thread (s : tstate) : Prop :=
  kpc s = KNone /\ (forall w, ppc s <> PCreate w) /\ Forall (fun k => kl_who k = ByParent) (kills s).

Lemma no_thread_step P s o s' :
  max_real_time (p_config P) = UNLIMITED -> no_thread s -> step P s o = Some s' -> no_thread s'.
Proof.
  intros U (K & N & F) H. unfold no_thread in *.
  assert (limited_time P = false) as L by (unfold limited_time; rewrite U; reflexivity).
  step_cases H; tcbn_all; subst; tcbn_all; try discriminate; try congruence;
    try (split; [assumption || reflexivity|split; [assumption || congruence|]]; try assumption).
  all: try (apply Forall_app; split; [assumption|constructor; [reflexivity|constructor]]).
  all: exfalso; eapply N; reflexivity.
Qed.

Lemma c30_unlimited P m w ops s k :
  max_real_time (p_config P) = UNLIMITED -> exec P (init m w) ops = Some s ->
  In k (kills s) -> kl_who k = ByParent.
Proof.
  intros U E I.
  assert (no_thread s) as (_ & _ & F).
  { apply (exec_inv P (fun _ => True) no_thread) with (ops := ops) (s := init m w); auto.
    - intros; eapply no_thread_step; eassumption.
    - split; [reflexivity|]. split; [intros x Z; discriminate Z|constructor]. }
  rewrite Forall_forall in F. apply F. exact I.
Qed.

(** ** C31 *)
Lemma calm_ops ops :
  args_intact ops -> not_interrupted ops -> calls_succeed ops -> calm ops.
Proof.
  intros A N C o I. split; [intros z ->; exact (A z I)|]. split; intros ->; [exact (N I)|exact (C I)].
Qed.

Lemma c31_bounded P lag m w ops s :
  1 <= max_real_time (p_config P) <= 2147482647 -> p_autoreap P = false -> 0 <= lag ->
  args_intact ops -> not_interrupted ops -> calls_succeed ops ->
  prompt P lag (init m w) ops -> exec P (init m w) ops = Some s ->
  (exists r, ppc s = PReturned r) \/
  mono s <= m + 1000 * max_real_time (p_config P) + 1000000 + 15 * lag.
Proof.
  intros Tp R L A N C Pr E.
  apply (bounded_return P Tp R m w lag L ops s); auto using calm_ops.
Qed.

Lemma c31_killed P m w ops s :
  1 <= max_real_time (p_config P) <= 2147482647 ->
  args_intact ops -> exec P (init m w) ops = Some s ->
  kpc s = KReturn \/ kpc s = KDone -> alive s = true -> kill_pending s = true.
Proof.
  intros Tp A E K Al. destruct (intact_exec P Tp m w ops s A E) as (_ & _ & (F & _) & (_ & _ & T3) & _).
  apply T3; [exact Al|]. destruct (F K) as (k & I & _). intros N. rewrite N in I. destruct I.
Qed.

(** ** Executions in which time passes only while nobody can act *)
Definition idle (P : tparams) (s : tstate) : bool :=
  match parent_step P s, killer_step P s, killer_cancel s with
  | None, None, None =>
      negb (alive s && kill_pending s) &&
      match ppc s, proc_st s with
      | PWait _, (Zombie _ | StoppedP _ false) => false
      | _, _ => true
      end
  | _, _, _ => false
  end.

Fixpoint ticks_idle (P : tparams) (s : tstate) (ops : list op) : bool :=
  match ops with
  | [] => true
  | o :: rest =>
      (match o with Tick _ => idle P s | _ => true end) &&
      match step P s o with Some s' => ticks_idle P s' rest | None => true end
  end.

Lemma idle_no_act P s a : idle P s = true -> ~ can_act P a s.
Proof.
  unfold idle. intros H (o & Ac & N1 & N2 & N3 & St).
  destruct (parent_step P s) eqn:E1; [discriminate|].
  destruct (killer_step P s) eqn:E2; [discriminate|].
  destruct (killer_cancel s) eqn:E3; [discriminate|].
  apply andb_prop in H. destruct H as [H1 H2].
  destruct a, o; try contradiction; cbn [step] in St; try congruence.
  - apply St. unfold parent_wait. destruct (ppc s), (proc_st s) as [| |? []| |]; try reflexivity; discriminate.
  - rewrite negb_true_iff in H1. rewrite H1 in St. congruence.
Qed.

Lemma clock_step P s o s' : step P s o = Some s' -> mono s' = mono s \/ exists d, o = Tick d.
Proof. intros H. step_cases H; tcbn_all; first [left; reflexivity | right; eauto]. Qed.

Lemma ticks_idle_app P s pre rest s1 :
  exec P s pre = Some s1 -> ticks_idle P s (pre ++ rest) = true -> ticks_idle P s1 rest = true.
Proof.
  revert s. induction pre as [|o pre IH]; intros s E T; cbn in E, T.
  - congruence.
  - destruct (step P s o) as [s'|]; [|discriminate]. apply andb_prop in T. destruct T as [_ T]. eauto.
Qed.

Lemma ticks_idle_prompt P lag s ops : 0 <= lag -> ticks_idle P s ops = true -> prompt P lag s ops.
Proof.
  intros L T pre mid post s1 s2 a -> E1 E2 A _.
  apply (ticks_idle_app _ _ _ _ _ E1) in T.
  enough (mono s2 = mono s1) by lia.
  clear E1 pre s. revert s1 E2 A T. induction mid as [|o mid IH]; intros s1 E2 A T; cbn in E2.
  - congruence.
  - cbn [app] in T. cbn [ticks_idle] in T.
    destruct (step P s1 o) as [s'|] eqn:St; [|discriminate].
    apply andb_prop in T. destruct T as [T1 T2].
    assert (mono s' = mono s1) as <-.
    { destruct (clock_step P s1 o s' St) as [?|[d ->]]; [assumption|].
      exfalso. apply (idle_no_act P s1 a T1). apply (A [] (Tick d :: mid) s1); reflexivity. }
    apply IH; auto.
    intros m1 m2 x Em Ex. apply (A (o :: m1) m2 x); [cbn; rewrite Em; reflexivity|].
    cbn. rewrite St. exact Ex.
Qed.

(** ** C33 *)
Lemma c33_before_reap P m w ops s k :
  1 <= max_real_time (p_config P) <= 2147482647 ->
  args_intact ops -> exec P (init m w) ops = Some s -> In k (kills s) ->
  (forall pid, kl_target k <> TPid pid) /\
  (proc_st s <> Reaped -> kl_target k = TJudged).
Proof.
  intros Tp A E I. destruct (intact_exec P Tp m w ops s A E) as (_ & _ & _ & (T1 & T2 & _) & _).
  unfold no_pid, all_judged in *. rewrite Forall_forall in T1. split; [apply T1; exact I|].
  intros N. specialize (T2 N). rewrite Forall_forall in T2. apply T2. exact I.
Qed.

(** ** C35 *)
Lemma c35_fired P m w ops s :
  1 <= max_real_time (p_config P) <= 2147482647 ->
  args_intact ops -> exec P (init m w) ops = Some s -> In UbStaleThread (ubs s) ->
  exists k, In k (kills s) /\ kl_who k = ByKiller.
Proof.
  intros Tp A E U. destruct (intact_exec P Tp m w ops s A E) as (_ & _ & (_ & F & _) & _). exact (F U).
Qed.

(** ** C36 *)
Definition awaited (s : tstate) : Prop :=
  (forall sig b, proc_st s <> StoppedP sig b) /\
  match ppc s with
  | PEnd _ _ _ | PCancel _ _ _ _ => proc_st s = Reaped
  | PReturned r => proc_st s = Reaped \/ exists code, r = error_result code /\ code <> 0
  | _ => True
  end.

Lemma awaited_step P s o s' :
  (forall sig, o <> StopP sig) -> awaited s -> step P s o = Some s' -> awaited s'.
Proof.
  intros C (N & A) H. unfold awaited in *.
  step_cases H; tcbn_all; subst; tcbn_all.
  all: try solve [exfalso; eapply C; reflexivity].
  all: try solve [exfalso; eapply N; reflexivity].
  all: split; try assumption; try (intros ? ?; discriminate); try exact I; try reflexivity; try (left; assumption).
  all: try solve [right; eexists; split; [reflexivity|discriminate]].
  all: try solve [destruct pp; try exact I; try discriminate; try (left; reflexivity); try reflexivity;
                  destruct A as [A|A]; [discriminate A|right; exact A]].
  all: try (left; reflexivity); destruct pp; try exact I; try reflexivity; left; reflexivity.
Qed.

Lemma c36_reaped P m w ops s r :
  never_stopped ops -> exec P (init m w) ops = Some s -> returned s r -> error r = 0 ->
  proc_st s = Reaped.
Proof.
  intros N E R Z.
  assert (awaited s) as (_ & A).
  { apply (exec_inv P (fun o => forall sig, o <> StopP sig) awaited) with (ops := ops) (s := init m w); auto.
    - intros; eapply awaited_step; eassumption.
    - intros o I sig ->. exact (N sig I).
    - split; [intros ? ?; discriminate|exact I]. }
  unfold returned in R. rewrite R in A. destruct A as [A|(code & A & B)]; [exact A|].
  exfalso. apply B. unfold error_result in A.
  assert (r = mkResult 0 0 0 0 0 code SUCCESS) as -> by congruence. exact Z.
Qed.

(** ** C37 *)
Lemma c37_no_spawn P m w ops s :
  ~ In Spawn ops -> exec P (init m w) ops = Some s -> kids s = O.
Proof.
  intros N E.
  apply (exec_inv P (fun o => o <> Spawn) (fun s => kids s = O)) with (ops := ops) (s := init m w); auto.
  - intros s1 o s2 C K H. step_cases H; tcbn_all; subst; tcbn_all; congruence.
  - intros o I ->. exact (N I).
Qed.

(** ** Every judged execution of the threads is an execution of [run] *)
Lemma every_execution P m w ops s r :
  limits_accepted (p_config P) -> 0 < p_pid P ->
  steady_clock ops -> usages_ok ops -> clocks_fit m w s ->
  exec P (init m w) ops = Some s -> returned s r -> error r = 0 ->
  exists e o ru ef, judged (p_config P) e o ru /\ run (p_config P) e = Returns (Val r) ef /\
    0 <= elapsed_us e <= mono s - m.
Proof.
  intros L Pp S U (W0 & W1 & Fit) E R Ze.
  destruct (time_exec P m w ops s S U E) as (Hw & Hm & _ & X).
  unfold returned in R. rewrite R in X. cbn [par_time] in X.
  change (2 ^ 50) with 1125899906842624 in W1.
  destruct X as [(code & X & Nz)|(ws & e & st & ru & Ej & B1 & B2 & Uo & (o & -> & Wf & Rep))].
  { exfalso. apply Nz. unfold error_result in X.
    assert (r = mkResult 0 0 0 0 0 code SUCCESS) as -> by congruence. exact Ze. }
  destruct (judged_env (p_config P) (p_pid P) o ru ws e L Pp Wf Uo) as (J & ef & Run); [lia|lia|].
  rewrite <- Ej in Run.
  eexists _, o, ru, ef. split; [exact J|]. split; [exact Run|].
  unfold elapsed_us. cbn [e_start e_end]. rewrite !us_tv. lia.
Qed.

(** ** C34 *)
Definition fresh_args (s : tstate) : Prop :=
  ~ In UbStaleArgs (ubs s) /\
  match ppc s with
  | PStart | PFork _ | PCreate _ | PKillCreate _ => kpc s = KNone
  | PInBlock _ => True
  | _ => kpc s <> KStart /\ (forall p, kpc s <> KGotPid p)
  end.

Lemma fresh_args_step P s o s' :
  (o = Parent -> forall w, ppc s = PInBlock w -> kpc s <> KStart /\ forall p, kpc s <> KGotPid p) ->
  fresh_args s -> step P s o = Some s' -> fresh_args s'.
Proof.
  intros C (N & A) H. unfold fresh_args in *.
  step_cases H; tcbn_all; subst; tcbn_all; try discriminate.
  all: try (specialize (C eq_refl _ eq_refl)).
  all: split; [try assumption|]; try exact I; try assumption; try reflexivity.
  all: try (destruct A as [A1 A2]; first [congruence | exfalso; apply A1; reflexivity | exfalso; eapply A2; reflexivity]).
  all: try (intros Z; apply in_app_or in Z; destruct Z as [Z|[Z|[]]]; [exact (N Z)|discriminate Z]).
  all: try (split; [|intros ?]; discriminate).
  all: destruct pp; try discriminate; try congruence; try exact I; try (split; [|intros ?]; discriminate).
  all: try (destruct A as [A1 A2]; first [congruence | exfalso; apply A1; reflexivity | exfalso; eapply A2; reflexivity]).
Qed.

Lemma c34_read_first P m w ops s :
  args_read_first P (init m w) ops -> exec P (init m w) ops = Some s -> ~ In UbStaleArgs (ubs s).
Proof.
  intros R E. enough (fresh_args s) as (F & _) by exact F.
  revert s R E. induction ops as [|o ops IH] using rev_ind; intros s R E.
  - cbn in E. assert (s = init m w) as -> by congruence. split; [exact (fun x => x)|reflexivity].
  - rewrite exec_app in E. destruct (exec P (init m w) ops) as [t|] eqn:Et; [|discriminate].
    cbn in E. destruct (step P t o) as [t'|] eqn:St; [|discriminate].
    assert (t' = s) as -> by congruence.
    apply (fresh_args_step P t o s); [| |exact St].
    + intros -> x Px. apply (R ops [] t x); auto.
    + apply IH; [|reflexivity]. intros pre post s1 x Eo E1 P1.
      apply (R pre (post ++ [o]) s1 x); auto. rewrite Eo. rewrite <- app_assoc. reflexivity.
Qed.
