(** What run() reports, in the interleaving model. *)
From Coq Require Import ZArith Bool List Lia ZifyBool.
From Verif.Base Require Import CInt CStr.
From Verif.Model Require Import Config Runner Timeout.
From Verif.Spec Require Import Verdict RunSpec TimeoutSpec.
From Verif.Proofs Require Import RunnerProofs RunnerClaims TimeoutProofs.
Import ListNotations.
Open Scope Z_scope.

Local Opaque judge error_result tv wait_status.

Ltac conjs := repeat match goal with |- _ /\ _ => split end.

Section Report.
Variable P : tparams.

Definition steady (o : op) : Prop :=
  (forall d, o <> SetClock d) /\ (forall ru, o = Wait ru -> usage_ok ru).

Definition upto (e D : Z) (ks : list kill_ev) : Prop :=
  Forall (fun k => kl_target k = TJudged -> kl_time k <= e - D) ks.

Definition inv_proc (s : tstate) : Prop :=
  match proc_st s with
  | Zombie o => wf_outcome o /\ forall sig, o <> Stopped sig
  | StoppedP sig _ => 1 <= sig <= 64
  | _ => True
  end.

(** An outcome was reported; unless it is a stop, the process is reaped and its
    last SIGKILL was sent before [e]. *)
Definition reported (pr : proc) (ks : list kill_ev) (e D st : Z) : Prop :=
  exists o, st = wait_status o /\ wf_outcome o /\
            ((exists sig, o = Stopped sig) \/ (pr = Reaped /\ upto e D ks)).

Definition par_time (m0 D : Z) (pp : parent) (m tf : Z) (pr : proc) (ks : list kill_ev) : Prop :=
  match pp with
  | PStart => True
  | PFork w => m0 <= w - D <= m
  | PCreate w | PInBlock w | PKillCreate w | PWait w | PKillWait w =>
      m0 <= w - D <= tf /\ tf <= m
  | PEnd w st ru =>
      m0 <= w - D <= tf /\ tf <= m /\ usage_ok ru /\ reported pr ks (m + D) D st
  | PCancel w e st ru =>
      m0 <= w - D <= tf /\ tf <= e - D <= m /\ usage_ok ru /\ reported pr ks e D st
  | PReturned r =>
      (exists code, r = error_result code /\ code <> 0) \/
      (exists w e st ru, r = judge (p_config P) st ru (tv w) (tv e) /\
         m0 <= w - D <= tf /\ tf <= e - D <= m /\ usage_ok ru /\ reported pr ks e D st)
  end.

Lemma upto_mono e e' D ks : e <= e' -> upto e D ks -> upto e' D ks.
Proof. intros L H. eapply Forall_impl; [|exact H]. cbn. intros k X Y. specialize (X Y). lia. Qed.

Lemma reported_mono pr ks e e' D st : e <= e' -> reported pr ks e D st -> reported pr ks e' D st.
Proof.
  intros L (o & A & B & [C|[C U]]); exists o; (split; [assumption|split; [assumption|]]); [left; assumption|].
  right. split; [assumption|eapply upto_mono; eassumption].
Qed.
Lemma reported_kill pr ks e D st k :
  (pr = Reaped -> kl_target k <> TJudged) -> reported pr ks e D st -> reported pr (ks ++ [k]) e D st.
Proof.
  intros N (o & A & B & [C|[C U]]); exists o; (split; [assumption|split; [assumption|]]); [left; assumption|].
  right. split; [assumption|]. apply Forall_app. split; [exact U|]. constructor; [|constructor].
  intros T. exfalso. exact (N C T).
Qed.
Lemma reported_proc pr pr' ks e D st : pr <> Reaped -> reported pr ks e D st -> reported pr' ks e D st.
Proof.
  intros N (o & A & B & [C|[C U]]); [|congruence]. exists o. auto.
Qed.

Lemma par_time_mono m0 D pp m m' tf pr ks :
  m <= m' -> par_time m0 D pp m tf pr ks -> par_time m0 D pp m' tf pr ks.
Proof.
  intros L H. destruct pp; cbn [par_time] in *; try lia; try exact I.
  - destruct H as (? & ? & ? & ?). conjs; try assumption; try lia.
    eapply reported_mono; [|eassumption]. lia.
  - destruct H as (? & ? & ? & ?). conjs; try assumption; try lia.
  - destruct H as [H|(w & e & st & ru & E & ? & ? & ? & ?)]; [left; assumption|right].
    exists w, e, st, ru. conjs; try assumption; try lia.
Qed.
Lemma par_time_kill m0 D pp m tf pr ks k :
  (pr = Reaped -> kl_target k <> TJudged) ->
  par_time m0 D pp m tf pr ks -> par_time m0 D pp m tf pr (ks ++ [k]).
Proof.
  intros L H. destruct pp; cbn [par_time] in *; try lia; try exact I.
  - destruct H as (? & ? & ? & ?). conjs; try assumption; try lia. apply reported_kill; assumption.
  - destruct H as (? & ? & ? & ?). conjs; try assumption; try lia. apply reported_kill; assumption.
  - destruct H as [H|(w & e & st & ru & E & ? & ? & ? & ?)]; [left; assumption|right].
    exists w, e, st, ru. conjs; try assumption; try lia. apply reported_kill; assumption.
Qed.
Lemma par_time_proc m0 D pp m tf pr pr' ks :
  pr <> Reaped -> par_time m0 D pp m tf pr ks -> par_time m0 D pp m tf pr' ks.
Proof.
  intros L H. destruct pp; cbn [par_time] in *; try lia; try exact I.
  - destruct H as (? & ? & ? & ?). conjs; try assumption; try lia. eapply reported_proc; eassumption.
  - destruct H as (? & ? & ? & ?). conjs; try assumption; try lia. eapply reported_proc; eassumption.
  - destruct H as [H|(w & e & st & ru & E & ? & ? & ? & ?)]; [left; assumption|right].
    exists w, e, st, ru. conjs; try assumption; try lia. eapply reported_proc; eassumption.
Qed.

Definition inv_time (m0 D : Z) (s : tstate) : Prop :=
  wall s = mono s + D /\ m0 <= mono s /\
  Forall (fun k => kl_time k <= mono s) (kills s) /\
  par_time m0 D (ppc s) (mono s) (t_fork s) (proc_st s) (kills s).

Lemma inv_proc_step s o s' : inv_proc s -> step P s o = Some s' -> inv_proc s'.
Proof.
  intros A H. unfold inv_proc in *.
  step_cases H; tcbn_all; subst; tcbn_all; try exact A; try exact I; try lia.
  all: split; [cbn [wf_outcome]; unfold SIGKILL; lia|congruence].
Qed.

Lemma le_new m ks w t :
  Forall (fun k => kl_time k <= m) ks -> Forall (fun k => kl_time k <= m) (ks ++ [mkKill w m t]).
Proof. intros H. apply Forall_app. split; [exact H|]. constructor; [cbn; lia|constructor]. Qed.

Lemma le_mono m m' ks : m <= m' ->
  Forall (fun k => kl_time k <= m) ks -> Forall (fun k => kl_time k <= m') ks.
Proof. intros L H. eapply Forall_impl; [|exact H]. cbn. intros; lia. Qed.

Lemma inv_time_step m0 D s o s' :
  steady o -> inv_proc s -> inv_time m0 D s -> step P s o = Some s' -> inv_time m0 D s'.
Proof.
  intros C A (W & M & G & X) H. unfold inv_time, inv_proc in *.
  step_cases H; tcbn_all; subst; tcbn_all.
  all: try (exfalso; destruct C as [C _]; eapply C; reflexivity).
  all: split; [lia|split; [lia|split]].
  all: try assumption.
  all: try (apply le_new; assumption).
  all: try (eapply le_mono; [|eassumption]; lia).
  all: try (eapply par_time_mono; [|eassumption]; lia).
  all: try (apply par_time_kill; [discriminate|assumption]).
  all: try (apply par_time_kill; [congruence|assumption]).
  all: try (eapply par_time_proc; [|eassumption]; congruence).
  all: cbn [par_time] in *; try lia.
  all: try (left; eexists; split; [reflexivity|discriminate]).
  all: try (right; do 4 eexists; split; [reflexivity|]; exact X).
  - destruct X as (X1 & X2 & X3 & X4). conjs; try lia; assumption.
  - destruct C as [_ C]. conjs; try lia; [apply C; reflexivity|]. exists (Stopped sig).
    split; [reflexivity|split; [exact A|left; eexists; reflexivity]].
  - destruct C as [_ C]. destruct A as [A1 A2]. conjs; try lia; [apply C; reflexivity|]. exists o.
    split; [reflexivity|split; [exact A1|right; split; [reflexivity|]]].
    eapply Forall_impl; [|exact G]. cbn. intros; lia.
Qed.

Lemma time_exec m w ops s :
  steady_clock ops -> (forall ru, In (Wait ru) ops -> usage_ok ru) ->
  exec P (init m w) ops = Some s -> inv_time m (w - m) s.
Proof.
  intros S U E.
  apply (exec_inv P steady (fun s => inv_proc s /\ inv_time m (w - m) s))
    with (ops := ops) (s := init m w); try assumption.
  - intros s1 o s2 I (I1 & I2) St. split; [eapply inv_proc_step; eassumption|eapply inv_time_step; eassumption].
  - intros o I. split; [intros d ->; exact (S d I)|intros ru ->; apply U; assumption].
  - split; [exact I|]. unfold inv_time. cbn. conjs; try lia; try exact I; try constructor.
Qed.
End Report.

Local Transparent tv.
Lemma us_tv z : us (tv z) = z.
Proof. unfold us, usec, tv. cbn [tv_sec tv_usec]. pose proof (Z.div_mod z 1000000). lia. Qed.
Lemma tv_ok_tv z : 0 <= z < 1125899906842624000000 -> tv_ok (tv z).
Proof.
  intros H. unfold tv_ok, instant_ok, tv. cbn [tv_sec tv_usec]. change (2 ^ 50) with 1125899906842624.
  pose proof (Z.mod_pos_bound z 1000000). split; [|lia]. split; [apply Z.div_pos; lia|].
  apply Z.div_lt_upper_bound; lia.
Qed.
Local Opaque tv.
Local Transparent judge error_result.

(** The result of an execution is that of [run] in the corresponding environment. *)
Lemma judged_env c pid o ru w e :
  limits_accepted c -> 0 < pid -> wf_outcome o -> usage_ok ru ->
  0 <= w < 1125899906842624000000 -> 0 <= e < 1125899906842624000000 ->
  let env := mkRunEnv 0 (tv w) pid 0 (Some (wait_status o, ru)) (tv e) in
  judged c env o ru /\
  exists ef, run c env = Returns (judge c (wait_status o) ru (tv w) (tv e)) ef.
Proof.
  intros L Pp W (U1 & U2 & _) Bw Be env.
  assert (judged c env o ru) as J.
  { unfold judged, env. cbn [e_getuid e_fork e_pthread_create e_wait4].
    split; [reflexivity|]. split; [assumption|]. split; [assumption|]. split; [right; reflexivity|].
    split; [reflexivity|]. split; [assumption|]. unfold env_ok. cbn [e_start e_end e_wait4].
    split; [apply tv_ok_tv; assumption|]. split; [apply tv_ok_tv; assumption|].
    intros st ru' E. assert (st = wait_status o /\ ru' = ru) as [-> ->] by (split; congruence).
    split; [exists o; auto|]. auto. }
  split; [exact J|].
  unfold run. unfold env at 1. cbn [e_getuid]. change (negb (0 =? 0)) with false. cbv beta iota.
  destruct (config_invalid c) eqn:V.
  { exfalso. destruct (c01_verdict_table _ _ _ _ J) as (r & ef & R & E0 & _).
    unfold run in R. cbn [env e_getuid] in R. change (negb (0 =? 0)) with false in R. cbv beta iota in R.
    rewrite V in R. unfold error_exit in R.
    injection R as <- _. discriminate E0. }
  cbn [env e_fork e_pthread_create e_wait4 e_start e_end].
  replace (pid <? 0) with false by lia. replace (pid =? 0) with false by lia.
  change (negb (0 =? 0)) with false. rewrite andb_false_r. eexists. reflexivity.
Qed.

Lemma timeout_is_reported P m w ops s r k :
  let c := p_config P in
  1 <= max_real_time c <= 2147482647 -> limits_accepted c -> 0 < p_pid P ->
  args_intact ops -> not_interrupted ops -> steady_clock ops -> usages_ok ops -> clocks_fit m w s ->
  exec P (init m w) ops = Some s -> returned s r ->
  In k (kills s) -> kl_who k = ByKiller -> kl_target k = TJudged -> signal r = 9 ->
  verdict r = 1 \/ verdict r = 2.
Proof.
  intros c T L Pp A N S U (W0 & W1 & Fit) E R I Wk Tk Sg.
  destruct (time_exec P m w ops s S U E) as (Hw & Hm & _ & X).
  destruct (inv_exec P T m w ops s A N E) as (_ & _ & G).
  unfold returned in R. rewrite R in X. cbn [par_time] in X.
  change (2 ^ 50) with 1125899906842624 in W1.
  destruct X as [(code & X & _)|(ws & e & st & ru & Ej & B1 & B2 & Uo & (o & -> & Wf & Rep))].
  { unfold error_result in X. assert (signal r = 0) by (replace r with (mkResult 0 0 0 0 0 code SUCCESS) by congruence; reflexivity).
    lia. }
  fold c in Ej.
  destruct (judged_env c (p_pid P) o ru ws e L Pp Wf Uo) as (J & ef & Run); [lia|lia|].
  set (env := mkRunEnv 0 (tv ws) (p_pid P) 0 (Some (wait_status o, ru)) (tv e)) in *.
  rewrite <- Ej in Run.
  destruct (c04_signal_exit_code _ _ _ _ J) as (r4 & ef4 & R4 & S4).
  destruct (c01_verdict_table _ _ _ _ J) as (r1 & ef1 & R1 & _ & V1).
  assert (r4 = r) as -> by congruence. assert (r1 = r) as -> by congruence.
  destruct o as [n|sg core|sg]; [lia| |lia].
  destruct S4 as [S4 _]. assert (sg = 9) as -> by lia.
  destruct Rep as [[sig Z]|[_ Up]]; [discriminate|].
  unfold upto in Up. rewrite Forall_forall in Up, G. specialize (Up k I Tk).
  destruct (G k I) as (_ & G2). specialize (G2 Wk).
  pose proof (q_bounds P) as Q.
  assert (Zdm : forall z, 1000 * (z / 1000) <= z < 1000 * (z / 1000) + 1000).
  { intros z. pose proof (Z.div_mod z 1000). pose proof (Z.mod_pos_bound z 1000). lia. }
  pose proof (Zdm e). pose proof (Zdm ws).
  assert (elapsed_ms env = e / 1000 - ws / 1000) as El.
  { unfold elapsed_ms, env. cbn [e_start e_end]. rewrite !us_tv. reflexivity. }
  assert (real_time r = elapsed_ms env) as RT.
  { destruct (c01_measured c env (Killed 9 core) ru J) as (r2 & ef2 & R2 & _ & H2 & _).
    - intros st ru' X. unfold env in X. cbn [e_wait4] in X.
      assert (ru' = ru) as -> by congruence. unfold times_fit. rewrite El.
      unfold INT_MIN, INT_MAX. split; [lia|]. destruct Uo as (_ & _ & Uo). exact Uo.
    - intros core' X. discriminate X.
    - congruence. }
  cbn [verdict_table] in V1.
  assert (exceeded (max_real_time c) (real_time r)) as Ex.
  { unfold exceeded. split; [lia|]. rewrite RT, El. subst c. lia. }
  clear - V1 Ex. unfold exceeded in *. cbn in V1.
  destruct V1 as [[_ V]|[(_ & _ & V)|[(_ & V & _)|[(_ & V & _)|(_ & V & _)]]]]; auto; exfalso; exact (V Ex).
Qed.
