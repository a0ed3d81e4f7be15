(** run() returns in bounded time when there is a real time limit. *)
From Coq Require Import ZArith Bool List Lia ZifyBool.
From Verif.Base Require Import CInt CStr.
From Verif.Model Require Import Config Runner Timeout.
From Verif.Spec Require Import Verdict RunSpec TimeoutSpec.
From Verif.Proofs Require Import TimeoutProofs.
Import ListNotations.
Open Scope Z_scope.

Local Opaque judge error_result tv wait_status.

Section Timed.
Variable P : tparams.
Let T := max_real_time (p_config P).
Let q := (T + 1000) / 1000.
Variable Tpos : 1 <= T <= 2147482647.
Variable noreap : p_autoreap P = false.

Definition ok_op (o : op) : Prop :=
  (forall z, o <> KillerJunk z) /\ o <> KillerFail /\ o <> ParentFail.

(** How far the execution is. *)
Definition stage (s : tstate) : Z :=
  match ppc s with
  | PStart => 0
  | PFork _ => 1
  | PCreate _ => 2
  | PInBlock _ => 3
  | PWait _ =>
      match proc_st s with
      | Zombie _ => 12
      | _ =>
          if kill_pending s then 11
          else match kpc s with
               | KStart => 4
               | KGotPid _ => 5
               | KGot _ _ => 6
               | KDetached _ _ => 7
               | KSleep _ u => if mono s <? u then 8 else 9
               | _ => 10
               end
      end
  | PEnd _ _ _ => 13
  | PCancel _ _ _ _ => 14
  | _ => 15
  end.

Definition stage_agent (n : Z) : option agent :=
  if (n <=? 3) || (n =? 12) || (n =? 13) || (n =? 14) then Some AParent
  else if (n <=? 7) || (n =? 9) || (n =? 10) then Some AKiller
  else if n =? 11 then Some AKernel
  else None.

Definition live (pr : proc) : Prop := pr <> NotForked /\ pr <> Reaped.

Definition wf_stage (s : tstate) : Prop :=
  match ppc s with
  | PReturned _ => True
  | PKillCreate _ | PKillWait _ => False
  | PStart | PFork _ => kpc s = KNone /\ proc_st s = NotForked /\ cancel_req s = false /\ kills s = []
  | PCreate _ => kpc s = KNone /\ live (proc_st s) /\ cancel_req s = false /\ kills s = []
  | PInBlock _ | PWait _ =>
      live (proc_st s) /\ cancel_req s = false /\
      (alive s = true -> kills s <> [] -> kill_pending s = true) /\
      match kpc s with
      | KNone | KFailed _ | KCancelled => False
      | KReturn | KDone => kills s <> []
      | KGotPid p | KSleep p _ | KWoke p => p = p_pid P
      | KGot p t | KDetached p t => p = p_pid P /\ t = T
      | KStart => True
      end
  | PEnd _ _ _ | PCancel _ _ _ _ => True
  end.

Lemma wf_step s o s' : ok_op o -> wf_stage s -> step P s o = Some s' -> wf_stage s'.
Proof.
  intros (C1 & C2 & C3) W H. unfold wf_stage, live, alive in *.
  assert (sleep_seconds T = Val q) as SV by exact (sleep_seconds_val P Tpos). pose proof (limited_true P Tpos) as LT.
  step_cases H; tcbn_all; subst; tcbn_all; try exact I; try contradiction; try congruence.
  all: try solve [intuition (try discriminate; try congruence; try (apply snoc_not_nil); eauto)].
  all: try (destruct pp; try exact I; try contradiction;
            solve [intuition (try discriminate; try congruence; try (eapply snoc_not_nil; eassumption); eauto)]).
  all: destruct pp; try exact I; try contradiction; exfalso; intuition (try discriminate; try lia).
Qed.

Lemma wf_init m w : wf_stage (init m w).
Proof. cbn. auto. Qed.

(** In every stage but the sleep and the last one somebody can act. *)
Lemma stage_can_act s a :
  wf_stage s -> stage_agent (stage s) = Some a -> can_act P a s.
Proof.
  intros W A. unfold wf_stage, live, stage, alive in *.
  pose proof (limited_true P Tpos) as LT.
  assert (forall o, acts a o -> o = Parent \/ (exists ru, o = Wait ru) \/ o = Killer \/ o = Deliver ->
            step P s o <> None -> can_act P a s) as Can.
  { intros o Ac O St. exists o. split; [assumption|].
    destruct O as [->|[[ru ->]|[->| ->]]]; repeat split; try discriminate; assumption. }
  destruct s as [m w pp kk cr dt pr kp rc kd us ks tf]; tcbn_all.
  destruct pp; try contradiction; cbn in A;
    try (injection A as <-; apply (Can Parent); [exact I|auto|cbn [step]; unfold parent_step; tcbn; discriminate]).
  - destruct W as ([W1 W2] & W3 & W4 & W5).
    destruct pr; try congruence.
    1,2: destruct kp; cbn in A;
      [injection A as <-; apply (Can Deliver); [exact I|auto|cbn; discriminate]|].
    1,2: destruct kk; try contradiction;
      try (exfalso; discriminate (W4 eq_refl W5));
      try (cbn in A; injection A as <-; apply (Can Killer); [exact I|auto|cbn [step]; unfold killer_step; tcbn;
           try discriminate]).
    all: try (rewrite W3; destruct (sleep_seconds timeout); discriminate).
    1,2: destruct (m <? until) eqn:U; cbn in A; [discriminate|]; injection A as <-;
      apply (Can Killer); [exact I|auto|cbn [step]; unfold killer_step; tcbn;
        destruct (until <=? m) eqn:V; [discriminate|lia]].
    cbn in A. injection A as <-. apply (Can (Wait (mkRu (mkTv 0 0) (mkTv 0 0) 0))); [exact I|eauto|].
    cbn. discriminate.
  - cbn in A. discriminate.
Qed.

(** An operation of the stage's agent advances the stage. *)
Lemma agent_advances s o s' a :
  ok_op o -> wf_stage s -> stage_agent (stage s) = Some a -> acts a o ->
  step P s o = Some s' -> stage s < stage s'.
Proof.
  intros (C1 & C2 & C3) W A Ac H.
  assert (sleep_seconds T = Val q) as SV by exact (sleep_seconds_val P Tpos).
  pose proof (limited_true P Tpos) as LT. pose proof (q_bounds P) as QB.
  unfold wf_stage, live, stage, alive in *.
  step_cases H; tcbn_all; subst; tcbn_all; try contradiction; try congruence.
  all: try (destruct a; try contradiction).
  all: try (cbn in A; first [discriminate | lia]).
  all: try (exfalso; intuition (try discriminate; try congruence); fail).
  all: try match goal with |- context [match ?x with PStart => _ | _ => _ end] => destruct x end; try contradiction;
       try (cbn in A; first [discriminate | lia]).
  all: try match goal with |- context [match ?x with NotForked => _ | _ => _ end] => destruct x end; try contradiction;
       try (cbn in A; first [discriminate | lia]).
  all: try (exfalso; intuition (try discriminate; try congruence); fail).
  all: destruct kp; try (cbn in A; first [discriminate | lia]).
  all: try match goal with |- context [match ?x with KNone => _ | _ => _ end] => destruct x end; try contradiction;
       try (cbn in A; first [discriminate | lia]).
  all: try (exfalso; intuition (try discriminate; try congruence); fail).
  all: repeat match goal with |- context [if ?x then _ else _] => destruct x eqn:? end;
       try (cbn in A; first [discriminate | lia]).
Qed.

Ltac dstage :=
  try match goal with |- context [match ?x with PStart => _ | _ => _ end] => is_var x; destruct x end; try contradiction;
  try lia;
  try match goal with |- context [match ?x with NotForked => _ | _ => _ end] => is_var x; destruct x end; try contradiction;
  try lia;
  try match goal with |- context [if ?x then 11 else _] => is_var x; destruct x end; try lia;
  try match goal with |- context [match ?x with KNone => _ | _ => _ end] => is_var x; destruct x end; try contradiction;
  try lia;
  repeat match goal with |- context [if ?x then _ else _] => destruct x eqn:? end; try lia.

(** The stage never goes back. *)
Lemma stage_mono s o s' :
  ok_op o -> wf_stage s -> step P s o = Some s' -> stage s <= stage s' <= 15.
Proof.
  intros (C1 & C2 & C3) W H.
  assert (sleep_seconds T = Val q) as SV by exact (sleep_seconds_val P Tpos).
  pose proof (limited_true P Tpos) as LT. pose proof (q_bounds P) as QB.
  unfold wf_stage, live, stage, alive in *.
  step_cases H; tcbn_all; subst; tcbn_all; try contradiction; try congruence.
  all: clear C1 C2 C3; dstage.
  all: try (exfalso; intuition (try discriminate; try congruence; try lia); fail).
Qed.

(** Time passes within a stage; the end of the sleep begins a new one. *)
Lemma stage_tick s d s' :
  step P s (Tick d) = Some s' ->
  stage s' = stage s \/ (stage s = 8 /\ stage s' = 9 /\ exists p, kpc s = KSleep p (mono s')).
Proof.
  intros H. destruct s as [m w pp kk cr dt pr kp rc kd us ks tf]. cbn [step kpc mono] in H.
  destruct pp; try (destruct (_ && _); [injection H as <-|discriminate]; left; reflexivity).
  destruct kk; try (destruct (_ && _); [injection H as <-|discriminate]; left; reflexivity).
  destruct pr; try (destruct (_ && _); [injection H as <-|discriminate]; left; reflexivity).
  all: destruct kp; try (destruct (_ && _); [injection H as <-|discriminate]; left; reflexivity).
  all: destruct ((0 <? d) && negb ((m <? until) && (until <? m + d))) eqn:E; [|discriminate];
    assert (s' = set_clocks (mkT m w (PWait start) (KSleep pid until) cr dt _ false rc kd us ks tf) (m + d) (w + d))
      as -> by (symmetry; injection H as <-; reflexivity);
    unfold stage; tcbn; destruct (m <? until) eqn:A; destruct (m + d <? until) eqn:B; auto; try lia;
    right; split; [reflexivity|split; [reflexivity|]]; exists pid; f_equal; lia.
Qed.

(** Only the passing of time changes the monotonic clock. *)
Lemma mono_step s o s' :
  step P s o = Some s' -> mono s' = mono s \/ exists d, o = Tick d.
Proof.
  intros H. step_cases H; tcbn_all; first [left; reflexivity | right; eauto].
Qed.

(** A sleep begins with the call. *)
Lemma sleep_step s o s' p u :
  ok_op o -> wf_stage s -> step P s o = Some s' -> kpc s' = KSleep p u ->
  kpc s = KSleep p u \/ (mono s' = mono s /\ u = mono s + 1000000 * q) \/ 10 <= stage s'.
Proof.
  intros (C1 & C2 & C3) W H K.
  assert (sleep_seconds T = Val q) as SV by exact (sleep_seconds_val P Tpos).
  pose proof (limited_true P Tpos) as LT.
  unfold wf_stage, live, alive in *.
  step_cases H; tcbn_all; subst; tcbn_all; try contradiction; try congruence; try (left; reflexivity); auto.
  all: try discriminate.
  destruct pp; try (right; right; unfold stage; tcbn; lia).
  all: right; left; split; [reflexivity|].
  all: assert (u = m + 1000000 * a) as -> by congruence; f_equal; f_equal.
  all: try contradiction; intuition congruence.
Qed.

Lemma sleep_stage s p u : kpc s = KSleep p u -> wf_stage s -> 3 <= stage s.
Proof.
  intros K W. unfold wf_stage in W. unfold stage. destruct (ppc s); try lia.
  all: try (exfalso; intuition congruence).
  rewrite K. destruct (proc_st s), (kill_pending s), (mono s <? u); lia.
Qed.

Lemma before_sleep s o s' p u :
  step P s o = Some s' -> kpc s' = KSleep p u -> kpc s <> KSleep p u -> stage s <= 7 \/ 10 <= stage s.
Proof.
  intros H K N. step_cases H; tcbn_all; subst; tcbn_all; try congruence; try (exfalso; apply N; assumption).
  unfold stage; tcbn. destruct pp; try lia. destruct pr, kp; lia.
Qed.

Lemma stage_pos s : 0 <= stage s.
Proof.
  unfold stage. destruct (ppc s); try lia. destruct (proc_st s), (kill_pending s), (kpc s); try lia;
  destruct (_ <? _); lia.
Qed.

Lemma returned_stage s : stage s = 15 -> wf_stage s -> exists r, ppc s = PReturned r.
Proof.
  unfold stage, wf_stage. destruct (ppc s); intros E W; try (exfalso; lia); try contradiction; eauto.
  destruct (proc_st s), (kill_pending s), (kpc s); try (exfalso; lia); destruct (_ <? _); exfalso; lia.
Qed.

Section Lag.
Variables m0 w0 lag : Z.
Variable lagpos : 0 <= lag.

Definition bound (n : Z) : Z := m0 + n * lag + (if 9 <=? n then 1000000 * q else 0).

Definition calm (ops : list op) : Prop := forall o, In o ops -> ok_op o.

Lemma qpos : 0 <= 1000000 * q.
Proof. pose proof (q_bounds P). unfold q, T in *. lia. Qed.

Lemma bound_step n k : n + 1 <= k -> bound n + lag <= bound k.
Proof.
  unfold bound. intros. pose proof qpos. destruct (9 <=? n) eqn:A, (9 <=? k) eqn:B; nia.
Qed.

(** Within the current stage, nobody who should act did. *)
Definition steady (s1 : tstate) (mid : list op) (n : Z) : Prop :=
  forall m1 m2 s', mid = m1 ++ m2 -> exec P s1 m1 = Some s' -> stage s' = n /\ wf_stage s'.

Lemma prompt_prefix s ops o : prompt P lag s (ops ++ [o]) -> prompt P lag s ops.
Proof.
  intros H pre mid post s1 s2 a E E1 E2 A B.
  apply (H pre mid (post ++ [o]) s1 s2 a); auto. rewrite E. rewrite <- !app_assoc. reflexivity.
Qed.

Lemma steady_quiet s1 mid n a :
  calm mid -> steady s1 mid n -> stage_agent n = Some a -> exec P s1 mid <> None ->
  forall o, In o mid -> ~ acts a o.
Proof.
  intros C S A X o I Ac. apply in_split in I. destruct I as (m1 & m2 & ->).
  destruct (exec P s1 m1) as [sa|] eqn:Ea.
  2:{ apply X. rewrite exec_app, Ea. reflexivity. }
  destruct (step P sa o) as [sb|] eqn:Eb.
  2:{ apply X. rewrite exec_app, Ea. cbn. rewrite Eb. reflexivity. }
  destruct (S m1 (o :: m2) sa eq_refl Ea) as [S1 W1].
  assert (exec P s1 (m1 ++ [o]) = Some sb) as Ec by (rewrite exec_app, Ea; cbn; rewrite Eb; reflexivity).
  destruct (S (m1 ++ [o]) m2 sb) as [S2 W2]; [rewrite <- app_assoc; reflexivity|exact Ec|].
  assert (stage sa < stage sb); [|lia].
  apply (agent_advances sa o sb a); auto.
  - apply C. apply in_or_app. right. left. reflexivity.
  - rewrite S1. exact A.
Qed.

Theorem timed ops s :
  calm ops -> prompt P lag (init m0 w0) ops -> exec P (init m0 w0) ops = Some s ->
  wf_stage s /\ stage s <= 15 /\
  (forall p u, kpc s = KSleep p u -> stage s <= 9 -> u <= m0 + 8 * lag + 1000000 * q) /\
  (exists pre mid s1, ops = pre ++ mid /\ exec P (init m0 w0) pre = Some s1 /\ exec P s1 mid = Some s /\
     mono s1 <= bound (stage s) /\ steady s1 mid (stage s)).
Proof.
  revert s. induction ops as [|o ops IH] using rev_ind; intros s C Pr E.
  - cbn in E. assert (s = init m0 w0) as -> by congruence. split; [apply wf_init|].
    split; [cbn; lia|]. split; [intros p u K; cbn in K; discriminate|].
    exists [], [], (init m0 w0). repeat (split; [reflexivity|]). split.
    + cbn. unfold bound. cbn. lia.
    + intros m1 m2 s' E1 E2. destruct m1; [|discriminate]. cbn in E2.
      assert (s' = init m0 w0) as -> by congruence. split; [reflexivity|apply wf_init].
  - rewrite exec_app in E. destruct (exec P (init m0 w0) ops) as [t|] eqn:Et; [|discriminate].
    cbn in E. destruct (step P t o) as [t'|] eqn:St; [|discriminate].
    assert (t' = s) as -> by congruence. clear E.
    assert (calm ops) as C' by (intros x I; apply C; apply in_or_app; auto).
    assert (ok_op o) as Co by (apply C; apply in_or_app; right; left; reflexivity).
    destruct (IH t C' (prompt_prefix _ _ _ Pr) eq_refl) as (W & L15 & SB & pre & mid & s1 & Eo & E1 & E2 & M & S).
    pose proof (wf_step t o s Co W St) as W'. pose proof (stage_mono t o s Co W St) as SM.
    assert (forall a, stage_agent (stage t) = Some a -> mono t <= bound (stage t) + lag) as Prog.
    { intros a A. enough (mono t - mono s1 <= lag) by lia.
      apply (prompt_prefix _ _ _ Pr pre mid [] s1 t a); auto.
      - rewrite app_nil_r. exact Eo.
      - intros m1 m2 s' Em Ex. destruct (S m1 m2 s' Em Ex) as [A1 A2].
        apply stage_can_act; [exact A2|]. rewrite A1. exact A.
      - apply (steady_quiet s1 mid (stage t) a); auto.
        + intros x I. apply C'. rewrite Eo. apply in_or_app. auto.
        + rewrite E2. discriminate. }
    assert (stage t <= 7 -> mono t <= m0 + 8 * lag) as Early.
    { intros L. pose proof (stage_pos t) as P0.
      assert (exists a, stage_agent (stage t) = Some a) as [a A].
      { unfold stage_agent. destruct (_ || _); [eauto|]. replace (stage t <=? 7) with true by lia. cbn. eauto. }
      specialize (Prog a A). pose proof (bound_step (stage t) 8 ltac:(lia)). unfold bound in *. cbn in *. lia. }
    split; [exact W'|]. split; [lia|]. split.
    { intros p u K L9.
      destruct (sleep_step t o s p u Co W St K) as [K0|[[Mo Eu]|?]]; [|..|lia].
      - apply (SB p u K0). lia.
      - assert (kpc t = KSleep p u \/ kpc t <> KSleep p u) as [K0|K0].
        { destruct (kpc t); try (right; discriminate).
          destruct (Z.eq_dec pid p), (Z.eq_dec until u); subst; auto; right; congruence. }
        + apply (SB p u K0). lia.
        + destruct (before_sleep t o s p u St K K0); [|lia]. specialize (Early H). lia. }
    destruct (Z.eq_dec (stage s) (stage t)) as [Q|Q].
    + exists pre, (mid ++ [o]), s1. rewrite Q. split; [rewrite Eo, app_assoc; reflexivity|].
      split; [exact E1|]. split; [rewrite exec_app, E2; cbn; rewrite St; reflexivity|].
      split; [exact M|].
      intros m1 m2 s' Em Ex.
      destruct m2 as [|x m2 _] using rev_ind.
      * rewrite app_nil_r in Em. subst m1. rewrite exec_app, E2 in Ex. cbn in Ex. rewrite St in Ex.
        assert (s = s') as <- by congruence. split; assumption.
      * rewrite app_assoc in Em. apply app_inj_tail in Em. destruct Em as [Em _].
        apply (S m1 m2 s' Em Ex).
    + exists (ops ++ [o]), [], s. split; [rewrite app_nil_r; reflexivity|].
      split; [rewrite exec_app, Et; cbn; rewrite St; reflexivity|]. split; [reflexivity|].
      split.
      2:{ intros m1 m2 s' Em Ex. destruct m1; [|discriminate]. cbn in Ex.
          assert (s' = s) as -> by congruence. split; [reflexivity|assumption]. }
      assert (stage t <> 8 -> mono t <= bound (stage t) + lag) as Prog'.
      { intros N8. destruct (stage_agent (stage t)) as [a|] eqn:A; [eauto|]. exfalso.
        unfold stage_agent in A. pose proof (stage_pos t).
        destruct (_ || _) eqn:B1 in A; [discriminate|]. destruct (_ || _) eqn:B2 in A; [discriminate|].
        destruct (_ =? 11) eqn:B3 in A; [discriminate|]. lia. }
      pose proof (bound_step (stage t) (stage s) ltac:(lia)) as BS.
      assert (stage t = 8 -> exists p u, kpc t = KSleep p u /\ mono t < u) as Sl.
      { clear. unfold stage. destruct (ppc t); intros; try lia.
        destruct (proc_st t), (kill_pending t), (kpc t); try lia;
          (destruct (mono t <? until) eqn:U; [exists pid, until; split; [reflexivity|lia]|lia]). }
      destruct (mono_step t o s St) as [Mo|[d ->]].
      * destruct (Z.eq_dec (stage t) 8) as [N8|N8]; [|specialize (Prog' N8); lia].
        destruct (Sl N8) as (p & u & K & Lu). specialize (SB p u K ltac:(lia)).
        unfold bound. replace (9 <=? stage s) with true by lia. nia.
      * destruct (stage_tick t d s St) as [?|(A1 & A2 & p & K)]; [contradiction|].
        specialize (SB p _ K ltac:(lia)). rewrite A2. unfold bound. change (9 <=? 9) with true. cbv iota. lia.
Qed.

Theorem bounded_return ops s :
  calm ops -> prompt P lag (init m0 w0) ops -> exec P (init m0 w0) ops = Some s ->
  (exists r, ppc s = PReturned r) \/ mono s <= m0 + 1000 * T + 1000000 + 15 * lag.
Proof.
  intros C Pr E.
  destruct (timed ops s C Pr E) as (W & L15 & SB & pre & mid & s1 & Eo & E1 & E2 & M & S).
  pose proof (q_bounds P) as QB. pose proof (stage_pos s). fold T in QB. fold q in QB.
  destruct (Z.eq_dec (stage s) 15) as [N|N]; [left; apply returned_stage; assumption|right].
  destruct (Z.eq_dec (stage s) 8) as [N8|N8].
  - assert (exists p u, kpc s = KSleep p u /\ mono s < u) as (p & u & K & Lu).
    { clear - N8. unfold stage in N8. destruct (ppc s); try lia.
      destruct (proc_st s), (kill_pending s), (kpc s); try lia;
        (destruct (mono s <? until) eqn:U; [exists pid, until; split; [reflexivity|lia]|lia]). }
    specialize (SB p u K ltac:(lia)). lia.
  - destruct (stage_agent (stage s)) as [a|] eqn:A.
    2:{ exfalso. unfold stage_agent in A.
        destruct (_ || _) eqn:B1 in A; [discriminate|]. destruct (_ || _) eqn:B2 in A; [discriminate|].
        destruct (_ =? 11) eqn:B3 in A; [discriminate|]. lia. }
    assert (mono s - mono s1 <= lag).
    { apply (Pr pre mid [] s1 s a); auto.
      - rewrite app_nil_r. exact Eo.
      - intros m1 m2 s' Em Ex. destruct (S m1 m2 s' Em Ex) as [A1 A2].
        apply stage_can_act; [exact A2|]. rewrite A1. exact A.
      - apply (steady_quiet s1 mid (stage s) a); auto.
        + intros x I. apply C. rewrite Eo. apply in_or_app. auto.
        + rewrite E2. discriminate. }
    pose proof qpos. unfold bound in M. destruct (9 <=? stage s); nia.
Qed.
End Lag.
End Timed.
