(** What run() tells about how long the program lived. *)
From Coq Require Import ZArith Bool List Lia ZifyBool.
From Verif.Base Require Import CInt CStr.
From Verif.Model Require Import Config Runner Timeout.
From Verif.Spec Require Import Verdict RunSpec TimeoutSpec LifeSpec.
From Verif.Proofs Require Import RunnerProofs RunnerClaims TimeoutProofs TimeoutReport TimeoutTimed TimeoutClaims.
Import ListNotations.
Open Scope Z_scope.

Local Opaque judge error_result tv wait_status.

Definition quiet (ops : list op) : Prop := forall o, In o ops -> ~ acts AParent o.

(** The last time the parent did something. *)
Lemma last_act ops :
  quiet ops \/ exists pre a mid, ops = pre ++ a :: mid /\ acts AParent a /\ quiet mid.
Proof.
  induction ops as [|o ops IH].
  - left. intros o [].
  - destruct IH as [IH|(pre & a & mid & -> & A & Q)].
    + assert (acts AParent o \/ ~ acts AParent o) as [D|D] by (destruct o; cbn; auto).
      * right. exists [], o, ops. auto.
      * left. intros x [<-|I]; auto.
    + right. exists (o :: pre), a, mid. auto.
Qed.

Section Life.
Variable P : tparams.

Lemma ppc_step s o s' : ~ acts AParent o -> step P s o = Some s' -> ppc s' = ppc s.
Proof. intros N H. step_cases H; tcbn_all; subst; tcbn_all; try reflexivity; exfalso; apply N; exact I. Qed.

Lemma ppc_quiet mid s s' : quiet mid -> exec P s mid = Some s' -> ppc s' = ppc s.
Proof.
  revert s. induction mid as [|o mid IH]; intros s Q E; cbn in E; [congruence|].
  destruct (step P s o) as [t|] eqn:St; [|discriminate].
  rewrite (IH t); [apply (ppc_step s o); [apply Q; left; reflexivity|exact St]| |exact E].
  intros x I. apply Q. right. exact I.
Qed.

Lemma mono_le s o s' : step P s o = Some s' -> mono s <= mono s'.
Proof. intros H. step_cases H; tcbn_all; subst; tcbn_all; lia. Qed.
Lemma mono_exec ops : forall s s', exec P s ops = Some s' -> mono s <= mono s'.
Proof.
  induction ops as [|o ops IH]; intros s s' E; cbn in E; [injection E as <-; lia|].
  destruct (step P s o) as [t|] eqn:St; [|discriminate].
  pose proof (mono_le _ _ _ St). pose proof (IH _ _ E). lia.
Qed.

(** The program is there once run() is past the fork. *)
Definition forked_inv (s : tstate) : Prop :=
  match ppc s with
  | PStart | PFork _ => proc_st s = NotForked
  | PReturned _ => True
  | _ => proc_st s <> NotForked
  end.

Lemma forked_inv_step s o s' : forked_inv s -> step P s o = Some s' -> forked_inv s'.
Proof.
  intros A H. unfold forked_inv in *.
  step_cases H; tcbn_all; subst; tcbn_all; try exact I; try congruence.
  all: destruct pp; try exact I; try congruence.
Qed.

Lemma forked_inv_exec m w ops s : exec P (init m w) ops = Some s -> forked_inv s.
Proof.
  intros E. apply (exec_inv P (fun _ => True) forked_inv) with (ops := ops) (s := init m w); auto.
  - intros; eapply forked_inv_step; eassumption.
  - reflexivity.
Qed.

Lemma fork_step s o s' : forked_inv s -> proc_st s <> NotForked -> step P s o = Some s' ->
  proc_st s' <> NotForked /\ t_fork s' = t_fork s.
Proof.
  intros A N H. unfold forked_inv in A. step_cases H; tcbn_all; subst; tcbn_all; try congruence; (split; [congruence|reflexivity]).
Qed.

Lemma fork_exec ops : forall s s', forked_inv s -> proc_st s <> NotForked -> exec P s ops = Some s' ->
  t_fork s' = t_fork s.
Proof.
  induction ops as [|o ops IH]; intros s s' A N E; cbn in E; [congruence|].
  destruct (step P s o) as [t|] eqn:St; [|discriminate].
  destruct (fork_step s o t A N St) as [N' F]. rewrite <- F. apply IH; auto. eapply forked_inv_step; eassumption.
Qed.

(** A program that has ended stays so until it is reaped. *)
Definition over (s : tstate) : Prop := match proc_st s with Zombie _ | Reaped => True | _ => False end.
Lemma over_step s o s' : forked_inv s -> over s -> step P s o = Some s' -> over s'.
Proof.
  intros A B H. unfold over, forked_inv in *. step_cases H; tcbn_all; subst; tcbn_all; try exact I; try contradiction; try congruence.
Qed.
Lemma over_exec ops : forall s s', forked_inv s -> over s -> exec P s ops = Some s' -> over s'.
Proof.
  induction ops as [|o ops IH]; intros s s' A N E; cbn in E; [congruence|].
  destruct (step P s o) as [t|] eqn:St; [|discriminate].
  apply (IH t); auto; [eapply forked_inv_step|eapply over_step]; eassumption.
Qed.
Lemma reaped_step s o s' : forked_inv s -> proc_st s = Reaped -> step P s o = Some s' -> proc_st s' = Reaped.
Proof.
  intros A B H. unfold forked_inv in *. step_cases H; tcbn_all; subst; tcbn_all; try congruence.
Qed.
Lemma reaped_exec ops : forall s s', forked_inv s -> proc_st s = Reaped -> exec P s ops = Some s' -> proc_st s' = Reaped.
Proof.
  induction ops as [|o ops IH]; intros s s' A N E; cbn in E; [congruence|].
  destruct (step P s o) as [t|] eqn:St; [|discriminate].
  apply (IH t); auto; [eapply forked_inv_step|eapply reaped_step]; eassumption.
Qed.

(** The end of the program. *)
Lemma end_step x o s s' : any_end x o -> step P s x = Some s' ->
  proc_st s <> NotForked /\ ~ over s /\ (proc_st s' = Zombie o \/ proc_st s' = Reaped) /\
  mono s' = mono s /\ t_fork s' = t_fork s /\ ppc s' = ppc s /\ wf_outcome o.
Proof.
  intros A H. unfold over. destruct A as [x o [code|sig core]|]; cbn [step] in H.
  - destruct (proc_st s) eqn:Ep; try discriminate. destruct (_ && _) eqn:B in H; [|discriminate].
    injection H as <-. unfold terminate; tcbn. repeat split; try congruence; try tauto; try lia.
    destruct (p_autoreap P); auto.
  - unfold alive in H. destruct (proc_st s) eqn:Ep; try discriminate; destruct (_ && _) eqn:B in H; try discriminate;
    injection H as <-; unfold terminate; tcbn; repeat split; try congruence; try tauto; try lia; destruct (p_autoreap P); auto.
  - unfold alive in H. destruct (proc_st s) eqn:Ep; try discriminate; destruct (_ && _) eqn:B in H; try discriminate;
    injection H as <-; unfold terminate; tcbn; repeat split; try congruence; try tauto; cbn; try lia; destruct (p_autoreap P); auto.
Qed.

(** What wait4 will tell, after the end. *)
Definition told (o : outcome) (s : tstate) : Prop :=
  (forall o', proc_st s = Zombie o' -> o' = o) /\ over s /\
  match ppc s with
  | PEnd _ st _ | PCancel _ _ st _ => st = wait_status o
  | _ => True
  end.
Lemma told_step o s x s' : forked_inv s -> told o s -> step P s x = Some s' -> told o s'.
Proof.
  intros A (B & C & D) H. unfold told, over, forked_inv in *.
  step_cases H; tcbn_all; subst; tcbn_all; try contradiction; try congruence.
  all: try solve [repeat split; try assumption; try exact I; try congruence].
  all: try solve [destruct pr; try contradiction; repeat split; try assumption; try exact I; try congruence].
  all: try solve [split; [congruence|split; [exact I|]]; f_equal; apply B; reflexivity].
Qed.
Lemma told_exec o ops : forall s s', forked_inv s -> told o s -> exec P s ops = Some s' -> told o s'.
Proof.
  induction ops as [|x ops IH]; intros s s' A N E; cbn in E; [congruence|].
  destruct (step P s x) as [t|] eqn:St; [|discriminate].
  apply (IH t); auto; [eapply forked_inv_step|eapply told_step]; eassumption.
Qed.

(** ** The delays of the parent *)
Section Delays.
Variables m w lag : Z.
Local Notation D := (w - m).
Local Notation run0 ops s := (exec P (init m w) ops = Some s) (only parsing).

Lemma exec_split pre x mid s :
  run0 (pre ++ x :: mid) s -> exists sa sb, run0 pre sa /\ step P sa x = Some sb /\ exec P sb mid = Some s.
Proof.
  rewrite exec_app. destruct (exec P (init m w) pre) as [sa|]; [|discriminate]. cbn.
  destruct (step P sa x) as [sb|] eqn:St; [|discriminate]. intros E. exists sa, sb. auto.
Qed.

Lemma clock_exec ops s : steady_clock ops -> run0 ops s -> wall s = mono s + D.
Proof.
  intros S E.
  apply (exec_inv P (fun o => forall d, o <> SetClock d) (fun s => wall s = mono s + D)) with (ops := ops) (s := init m w); auto.
  - intros s1 o s2 C A H. step_cases H; tcbn_all; subst; tcbn_all; try lia; exfalso; eapply C; reflexivity.
  - intros o I d ->. exact (S d I).
  - cbn. lia.
Qed.

Lemma prompt_app ops ops' : prompt P lag (init m w) (ops ++ ops') -> prompt P lag (init m w) ops.
Proof.
  intros H pre mid post s1 s2 a E E1 E2 A B.
  apply (H pre mid (post ++ ops') s1 s2 a); auto. rewrite E. rewrite <- !app_assoc. reflexivity.
Qed.

(** Over a stretch in which only [Parent] is missing, at most [lag] passes. *)
Lemma turn pre mid sb s (good : tstate -> Prop) :
  prompt P lag (init m w) (pre ++ mid) -> run0 pre sb -> exec P sb mid = Some s -> quiet mid ->
  (forall s1, ppc s1 = ppc sb -> good s1 -> can_act P AParent s1) ->
  (forall m1 m2 s1, mid = m1 ++ m2 -> exec P sb m1 = Some s1 -> good s1) ->
  mono s - mono sb <= lag.
Proof.
  intros Pr E1 E2 Q C G.
  apply (Pr pre mid [] sb s AParent); auto; [rewrite app_nil_r; reflexivity|].
  intros m1 m2 s1 -> Ex. apply C; [|apply (G m1 m2 s1); auto].
  apply (ppc_quiet m1); [|exact Ex]. intros x I. apply Q. apply in_or_app. auto.
Qed.

Lemma can_parent s : parent_step P s <> None -> can_act P AParent s.
Proof. intros H. exists Parent. repeat split; try discriminate. exact H. Qed.
Lemma can_wait s w0 o : ppc s = PWait w0 -> proc_st s = Zombie o -> can_act P AParent s.
Proof.
  intros A B. exists (Wait (mkRu (mkTv 0 0) (mkTv 0 0) 0)). repeat split; try discriminate.
  cbn [step]. unfold parent_wait. rewrite A, B. discriminate.
Qed.

(** The state before the last act, if the parent has done something. *)
Lemma before ops s : run0 ops s -> ppc s <> PStart ->
  exists pre a mid sa sb, ops = pre ++ a :: mid /\ acts AParent a /\ quiet mid /\
    run0 pre sa /\ step P sa a = Some sb /\ exec P sb mid = Some s /\ ppc sb = ppc s /\ run0 (pre ++ [a]) sb.
Proof.
  intros E N. destruct (last_act ops) as [Q|(pre & a & mid & -> & A & Q)].
  - exfalso. apply N. rewrite (ppc_quiet ops _ _ Q E). reflexivity.
  - destruct (exec_split _ _ _ _ E) as (sa & sb & E1 & E2 & E3). exists pre, a, mid, sa, sb.
    repeat (split; [first [assumption|reflexivity]|]). split; [symmetry; apply (ppc_quiet mid); assumption|].
    rewrite exec_app, E1. cbn. rewrite E2. reflexivity.
Qed.

Lemma snoc_app (A : Type) (pre mid : list A) a : pre ++ a :: mid = (pre ++ [a]) ++ mid.
Proof. rewrite <- app_assoc. reflexivity. Qed.

Lemma at_fork ops s w0 : steady_clock ops -> prompt P lag (init m w) ops -> run0 ops s -> ppc s = PFork w0 ->
  mono s <= w0 - D + lag.
Proof.
  intros S Pr E F. destruct (before ops s E) as (pre & a & mid & sa & sb & -> & A & Q & E1 & E2 & E3 & E4 & E5); [congruence|].
  rewrite snoc_app in Pr. pose proof (turn _ _ _ _ (fun _ => True) Pr E5 E3 Q) as T.
  assert (mono s - mono sb <= lag) as T'.
  { apply T; auto. intros s1 Es _. apply can_parent. unfold parent_step. rewrite Es, E4, F. discriminate. }
  assert (wall sa = mono sa + D) as W by (apply (clock_exec pre); [intros d I; apply (S d); apply in_or_app; auto|exact E1]).
  rewrite F in E4. clear - E4 E2 A T' W.
  step_cases E2; tcbn_all; subst; tcbn_all; try discriminate; try contradiction.
  injection E4 as <-. lia.
Qed.

Ltac peel E := let pre := fresh "pre" in
  destruct (before _ _ E) as (pre & a & mid & sa & sb & -> & A & Q & E1 & E2 & E3 & E4 & E5); [congruence|].

Lemma steady_pre ops ops' : steady_clock (ops ++ ops') -> steady_clock ops.
Proof. intros S d I. apply (S d). apply in_or_app. auto. Qed.

Lemma fork_kept sb mid s : forked_inv sb -> proc_st sb <> NotForked -> exec P sb mid = Some s -> t_fork s = t_fork sb.
Proof. intros. eapply fork_exec; eassumption. Qed.

(** Started at [w0], at [t_fork] the process, at most [lag] later. *)
Lemma at_create ops s w0 : steady_clock ops -> prompt P lag (init m w) ops -> run0 ops s -> ppc s = PCreate w0 ->
  t_fork s <= w0 - D + lag /\ mono s <= t_fork s + lag.
Proof.
  intros S Pr E F. destruct (before ops s E) as (pre & a & mid & sa & sb & -> & A & Q & E1 & E2 & E3 & E4 & E5); [congruence|].
  assert (mono s - mono sb <= lag) as T'.
  { rewrite snoc_app in Pr. apply (turn _ _ _ _ (fun _ => True) Pr E5 E3 Q); auto.
    intros s1 Es _. apply can_parent. unfold parent_step. rewrite Es, E4, F. discriminate. }
  pose proof (forked_inv_exec _ _ _ _ E5) as FI.
  assert (t_fork s = t_fork sb) as ->.
  { apply (fork_kept sb mid); auto. unfold forked_inv in FI. rewrite E4, F in FI. exact FI. }
  assert (ppc sa = PFork w0 /\ t_fork sb = mono sa /\ mono sb = mono sa) as (F1 & F2 & F3).
  { rewrite F in E4. clear - E4 E2 A.
    step_cases E2; tcbn_all; subst; tcbn_all; try discriminate; try contradiction.
    all: injection E4 as <-; auto. }
  pose proof (at_fork pre sa w0 (steady_pre _ _ S) (prompt_app _ _ Pr) E1 F1). lia.
Qed.

Lemma at_block ops s w0 : steady_clock ops -> prompt P lag (init m w) ops -> run0 ops s -> ppc s = PInBlock w0 ->
  t_fork s <= w0 - D + lag /\ mono s <= t_fork s + 2 * lag.
Proof.
  intros S Pr E F. destruct (before ops s E) as (pre & a & mid & sa & sb & -> & A & Q & E1 & E2 & E3 & E4 & E5); [congruence|].
  assert (mono s - mono sb <= lag) as T'.
  { rewrite snoc_app in Pr. apply (turn _ _ _ _ (fun _ => True) Pr E5 E3 Q); auto.
    intros s1 Es _. apply can_parent. unfold parent_step. rewrite Es, E4, F. discriminate. }
  pose proof (forked_inv_exec _ _ _ _ E5) as FI.
  assert (t_fork s = t_fork sb) as ->.
  { apply (fork_kept sb mid); auto. unfold forked_inv in FI. rewrite E4, F in FI. exact FI. }
  assert (ppc sa = PCreate w0 /\ t_fork sb = t_fork sa /\ mono sb = mono sa) as (F1 & F2 & F3).
  { rewrite F in E4. clear - E4 E2 A.
    step_cases E2; tcbn_all; subst; tcbn_all; try discriminate; try contradiction.
    all: injection E4 as <-; auto. }
  pose proof (at_create pre sa w0 (steady_pre _ _ S) (prompt_app _ _ Pr) E1 F1). lia.
Qed.

(** wait4 is called at most two delays after the fork. *)
Lemma at_wait ops s w0 : 0 <= lag -> steady_clock ops -> prompt P lag (init m w) ops -> run0 ops s -> ppc s = PWait w0 ->
  exists pre mid sb, ops = pre ++ mid /\ quiet mid /\ run0 pre sb /\ exec P sb mid = Some s /\
    ppc sb = PWait w0 /\ t_fork sb = t_fork s /\ t_fork s <= w0 - D + lag /\ mono sb <= t_fork s + 2 * lag.
Proof.
  intros L S Pr E F. destruct (before ops s E) as (pre & a & mid & sa & sb & -> & A & Q & E1 & E2 & E3 & E4 & E5); [congruence|].
  pose proof (forked_inv_exec _ _ _ _ E5) as FI.
  assert (t_fork s = t_fork sb) as Tf.
  { apply (fork_kept sb mid); auto. unfold forked_inv in FI. rewrite E4, F in FI. exact FI. }
  exists (pre ++ [a]), mid, sb. rewrite snoc_app. repeat (split; [first [assumption|reflexivity|congruence]|]).
  assert ((ppc sa = PInBlock w0 /\ t_fork sb = t_fork sa /\ mono sb = mono sa) \/
          (ppc sa = PFork w0 /\ t_fork sb = mono sa /\ mono sb = mono sa)) as [(F1 & F2 & F3)|(F1 & F2 & F3)].
  { rewrite F in E4. clear - E4 E2 A.
    step_cases E2; tcbn_all; subst; tcbn_all; try discriminate; try contradiction.
    all: try (injection E4 as <-; auto). }
  - pose proof (at_block pre sa w0 (steady_pre _ _ S) (prompt_app _ _ Pr) E1 F1). lia.
  - pose proof (at_fork pre sa w0 (steady_pre _ _ S) (prompt_app _ _ Pr) E1 F1). lia.
Qed.

Lemma zombie_quiet mid : forall s s' o, quiet mid -> forked_inv s -> proc_st s = Zombie o -> exec P s mid = Some s' -> proc_st s' = Zombie o.
Proof.
  induction mid as [|x mid IH]; intros s s' o Q A Z E; cbn in E; [congruence|].
  destruct (step P s x) as [t|] eqn:St; [|discriminate].
  apply (IH t); auto; [intros y I; apply Q; right; exact I|eapply forked_inv_step; eassumption|].
  assert (~ acts AParent x) as N by (apply Q; left; reflexivity).
  clear - N A Z St. unfold forked_inv in A. step_cases St; tcbn_all; subst; tcbn_all; try congruence; exfalso; apply N; exact I.
Qed.

(** The result is looked at after at most four delays. *)
Lemma at_end pre x post o s1 ops s w0 st ru :
  0 <= lag -> steady_clock ops -> never_stopped ops -> prompt P lag (init m w) ops ->
  ops = pre ++ x :: post -> any_end x o -> run0 pre s1 -> run0 ops s -> ppc s = PEnd w0 st ru ->
  st = wait_status o /\ t_fork s = t_fork s1 /\ t_fork s <= w0 - D + lag /\
  mono s1 <= mono s <= Z.max (mono s1) (t_fork s1) + 4 * lag.
Proof.
  intros L S N Pr Eo X E0 E F.
  assert (forked_inv s1) as FI0 by (apply (forked_inv_exec m w pre); exact E0).
  assert (exists s1', step P s1 x = Some s1' /\ exec P s1' post = Some s) as (s1' & X1 & X2).
  { rewrite Eo in E. destruct (exec_split _ _ _ _ E) as (t & t' & H1 & H2 & H3). exists t'. split; congruence. }
  destruct (end_step _ _ _ _ X X1) as (B1 & B2 & B3 & B4 & B5 & B6 & B7).
  assert (forked_inv s1') as FI1 by (eapply forked_inv_step; eassumption).
  assert (told o s1') as TO.
  { split; [|split].
    - intros o' Z. destruct B3 as [B3|B3]; congruence.
    - unfold over. destruct B3 as [-> | ->]; exact I.
    - rewrite B6. assert (awaited s1) as AW.
      { apply (exec_inv P (fun o => forall sig, o <> StopP sig) awaited) with (ops := pre) (s := init m w); auto.
        - intros; eapply awaited_step; eassumption.
        - intros y I sig ->. apply (N sig). rewrite Eo. apply in_or_app. auto.
        - split; [intros ? ?; discriminate|exact I]. }
      destruct AW as [_ AW]. unfold over in B2.
      destruct (ppc s1); try exact I; exfalso; apply B2; rewrite AW; exact I. }
  pose proof (told_exec _ _ _ _ FI1 TO X2) as (_ & _ & TS). rewrite F in TS.
  split; [exact TS|].
  assert (t_fork s = t_fork s1) as TF.
  { rewrite <- B5. apply (fork_exec post); auto. destruct B3 as [-> | ->]; discriminate. }
  split; [exact TF|].
  destruct (before ops s E) as (p4 & a & o5 & sa & sb & Eq & A & Q & E1 & E2 & E3 & E4 & E5); [congruence|].
  assert (mono s - mono sb <= lag) as T'.
  { rewrite Eq, snoc_app in Pr. apply (turn _ _ _ _ (fun _ => True) Pr E5 E3 Q); auto.
    intros s2 Es _. apply can_parent. unfold parent_step. rewrite Es, E4, F. discriminate. }
  assert (ppc sa = PWait w0 /\ (exists o', proc_st sa = Zombie o') /\ mono sb = mono sa /\ proc_st sb = Reaped /\ t_fork sb = t_fork sa)
    as (F1 & (o' & F2) & F3 & F4 & F5).
  { assert (awaited sa) as [AW _].
    { apply (exec_inv P (fun o => forall sig, o <> StopP sig) awaited) with (ops := p4) (s := init m w); auto.
      - intros; eapply awaited_step; eassumption.
      - intros y I sig ->. apply (N sig). rewrite Eq. apply in_or_app. auto.
      - split; [intros ? ?; discriminate|exact I]. }
    rewrite F in E4. clear - E4 E2 A AW.
    step_cases E2; tcbn_all; subst; tcbn_all; try discriminate; try contradiction.
    - exfalso. eapply AW. reflexivity.
    - injection E4 as <- <- <-. eauto 8. }
  (* the end lies before wait4 *)
  assert (exists c, p4 = pre ++ x :: c) as [c Ec].
  { rewrite Eo in Eq. destruct (app_eq_app _ _ _ _ Eq) as [l [[H1 H2]|[H1 H2]]].
    - (* pre = p4 ++ l *)
      destruct l as [|y l].
      + cbn in H2. injection H2 as <- _. exfalso. destruct X as [? ? []|]; exact A.
      + exfalso. cbn in H2. injection H2 as <- ->.
        rewrite H1 in E0. destruct (exec_split _ _ _ _ E0) as (u & u' & U1 & U2 & U3).
        assert (u = sa) as -> by congruence. assert (u' = sb) as -> by congruence.
        apply B2. unfold over. rewrite (reaped_exec l sb s1); [exact I| |exact F4|exact U3].
        apply (forked_inv_exec m w (p4 ++ [a])). exact E5.
    - destruct l as [|y l].
      + cbn in H2. injection H2 as <- _. exfalso. destruct X as [? ? []|]; exact A.
      + cbn in H2. injection H2 as <- H2. exists l. exact H1. }
  assert (exec P s1' c = Some sa) as X3.
  { rewrite Ec in E1. destruct (exec_split _ _ _ _ E1) as (u & u' & U1 & U2 & U3).
    assert (u = s1) as -> by congruence. assert (u' = s1') as -> by congruence. exact U3. }
  assert (t_fork sa = t_fork s1) as TA.
  { rewrite <- B5. apply (fork_exec c); auto. destruct B3 as [-> | ->]; discriminate. }
  rewrite Eq in S, Pr.
  destruct (at_wait p4 sa w0 L (steady_pre _ _ S) (prompt_app _ _ Pr) E1 F1) as (p3 & o4 & sw & Ep & Qw & W1 & W2 & W3 & W4 & W5 & W6).
  split; [lia|].
  assert (mono s1 <= mono s) as Mle.
  { pose proof (mono_exec _ _ _ X2). lia. }
  split; [exact Mle|].
  pose proof (prompt_app _ _ Pr) as Pw.
  assert (proc_st s1' = Zombie o \/ proc_st s1' = Reaped -> proc_st s1' = Zombie o) as ZZ.
  { intros [Z|Z]; [exact Z|]. rewrite (reaped_exec c s1' sa FI1 Z X3) in F2. discriminate. }
  specialize (ZZ B3).
  enough (mono sa <= Z.max (mono s1) (t_fork s1) + 3 * lag) by lia.
  rewrite Ep in Ec. destruct (app_eq_app _ _ _ _ Ec) as [l [[H1 H2]|[H1 H2]]].
  - (* p3 = pre ++ l *)
    destruct l as [|y l].
    + cbn in H2. rewrite app_nil_r in H1. subst p3. assert (sw = s1) as -> by congruence.
      assert (mono sa - mono s1' <= lag); [|lia].
      apply (turn (pre ++ [x]) c s1' sa (fun t => exists o, proc_st t = Zombie o)); auto.
      * rewrite <- snoc_app, H2. rewrite <- Ep. exact Pw.
      * rewrite exec_app, E0. cbn. rewrite X1. reflexivity.
      * intros y I. apply Qw. rewrite <- H2. right. exact I.
      * intros t Et [oo Zt]. apply (can_wait t w0 oo); [|exact Zt]. rewrite Et, B6, W3. reflexivity.
      * intros m1 m2 t -> Et. exists o. apply (zombie_quiet m1 s1'); auto.
        intros y I. apply Qw. rewrite <- H2. right. apply in_or_app. auto.
    + cbn in H2. injection H2 as <- H2. subst p3.
      destruct (exec_split _ _ _ _ W1) as (u & u' & U1 & U2 & U3).
      assert (u = s1) as -> by congruence. assert (u' = s1') as -> by congruence.
      assert (forked_inv sw) as FW by (apply (forked_inv_exec m w (pre ++ x :: l)); exact W1).
      pose proof (told_exec _ _ _ _ FI1 TO U3) as (T1 & T2 & _).
      assert (proc_st sw = Zombie o) as Zw.
      { unfold over in T2. destruct (proc_st sw) eqn:Zs; try contradiction.
        - f_equal. apply T1. reflexivity.
        - rewrite (reaped_exec o4 sw sa FW Zs W2) in F2. discriminate. }
      assert (mono sa - mono sw <= lag); [|lia].
      apply (turn (pre ++ x :: l) o4 sw sa (fun t => exists o, proc_st t = Zombie o)); auto.
      * rewrite <- Ep. exact Pw.
      * intros t Et [oo Zt]. apply (can_wait t w0 oo); [|exact Zt]. rewrite Et, W3. reflexivity.
      * intros m1 m2 t -> Et. exists o. apply (zombie_quiet m1 sw); auto.
        intros y I. apply Qw. apply in_or_app. auto.
  - (* pre = p3 ++ l *)
    assert (o4 = l ++ x :: c) as Eo4 by (symmetry; congruence).
    assert (ppc s1 = PWait w0) as Pw1.
    { rewrite H1 in E0. rewrite exec_app, W1 in E0. rewrite (ppc_quiet l sw s1); [exact W3| |exact E0].
      intros y I. apply Qw. rewrite Eo4. apply in_or_app. auto. }
    assert (mono sa - mono s1' <= lag); [|lia].
    apply (turn (pre ++ [x]) c s1' sa (fun t => exists o, proc_st t = Zombie o)); auto.
    + rewrite <- snoc_app, <- Ec, <- Ep. exact Pw.
    + rewrite exec_app, E0. cbn. rewrite X1. reflexivity.
    + intros y I. apply Qw. rewrite Eo4. apply in_or_app. right. right. exact I.
    + intros t Et [oo Zt]. apply (can_wait t w0 oo); [|exact Zt]. rewrite Et, B6, Pw1. reflexivity.
    + intros m1 m2 t -> Et. exists o. apply (zombie_quiet m1 s1'); auto.
      intros y I. apply Qw. rewrite Eo4. apply in_or_app. right. right. apply in_or_app. auto.
Qed.

Lemma returned_from ops s r : run0 ops s -> returned s r -> error r = 0 ->
  exists pre mid s6 w0 e st ru, ops = pre ++ mid /\ run0 pre s6 /\ ppc s6 = PCancel w0 e st ru /\
    Val r = judge (p_config P) st ru (tv w0) (tv e) /\ exec P s6 mid = Some s.
Proof.
  intros E R Z. unfold returned in R.
  destruct (before ops s E) as (pre & a & mid & sa & sb & -> & A & Q & E1 & E2 & E3 & E4 & E5); [congruence|].
  rewrite R in E4.
  assert (forall code, code <> 0 -> Val r <> error_result code) as NE.
  { intros code Nc X. Local Transparent error_result. unfold error_result in X. Local Opaque error_result.
    injection X as ->. apply Nc. exact Z. }
  enough (exists w0 e st ru, ppc sa = PCancel w0 e st ru /\ Val r = judge (p_config P) st ru (tv w0) (tv e)) as (w0 & e & st & ru & H1 & H2).
  { exists pre, (a :: mid), sa, w0, e, st, ru. repeat (split; [first [assumption|reflexivity]|]). cbn. rewrite E2. exact E3. }
  clear - E2 E4 A NE.
  assert (forall r' , PReturned r' = PReturned (Val r) -> r' = Val r) as Inj by (intros r' X; congruence).
  step_cases E2; tcbn_all; subst; tcbn_all; try discriminate; try contradiction.
  all: try (apply Inj in E4).
  all: try (exfalso; refine (NE _ _ (eq_sym E4)); discriminate).
  all: try (do 4 eexists; split; [reflexivity|symmetry; exact E4]).
Qed.

Lemma fork_before s ops : run0 ops s -> proc_st s = NotForked \/ t_fork s <= mono s.
Proof.
  intros E.
  apply (exec_inv P (fun _ => True) (fun s => proc_st s = NotForked \/ t_fork s <= mono s)) with (ops := ops) (s := init m w); auto.
  - intros s1 o s2 _ A H. step_cases H; tcbn_all; subst; tcbn_all; destruct A as [A|A]; try discriminate A; auto; right; lia.
Qed.

(** Every execution is prompt for some delay. *)
Lemma prompt_somehow ops s : run0 ops s -> prompt P (mono s - m) (init m w) ops /\ 0 <= mono s - m.
Proof.
  intros E. split.
  - intros pre mid post s1 s2 a -> E1 E2 _ _. rewrite exec_app, E1, exec_app, E2 in E.
    pose proof (mono_exec _ _ _ E). pose proof (mono_exec _ _ _ E1) as X. cbn in X. lia.
  - pose proof (mono_exec _ _ _ E) as X. cbn in X. lia.
Qed.

(** The result is that of [run] in an environment whose clock shows the life of the program, up to five delays. *)
Lemma life_env ops s r o life :
  limits_accepted (p_config P) -> 0 < p_pid P -> 0 <= lag ->
  steady_clock ops -> never_stopped ops -> usages_ok ops -> clocks_fit m w s ->
  prompt P lag (init m w) ops -> run0 ops s -> returned s r -> error r = 0 ->
  lives any_end P (init m w) ops o life ->
  exists e ru ef, judged (p_config P) e o ru /\ run (p_config P) e = Returns (Val r) ef /\ env_fits e /\
    0 <= life <= elapsed_us e /\ elapsed_us e <= life + 5 * lag.
Proof.
  intros La Pp L S N U (C0 & C1 & C2) Pr E R Z (pre & x & post & s1 & Eo & X & E0 & ->).
  destruct (returned_from ops s r E R Z) as (p6 & o7 & s6 & w0 & e & st & ru & Eq & F1 & F2 & F3 & F4).
  pose proof (mono_exec _ _ _ F4) as M6.
  rewrite Eq in S, N, U, Pr.
  assert (usages_ok p6) as U6 by (intros q I; apply U; apply in_or_app; auto).
  destruct (time_exec P m w p6 s6 (steady_pre _ _ S) U6 F1) as (Hw & Hm & _ & T). rewrite F2 in T. cbn [par_time] in T.
  destruct T as (T1 & T2 & T3 & _).
  destruct (before p6 s6 F1) as (p5 & a & o6 & sa & sb & Eq5 & A & Q & E1 & E2 & E3 & E4 & E5); [congruence|].
  assert (ppc sa = PEnd w0 st ru /\ e = wall sa /\ mono sb = mono sa /\ proc_st sb = proc_st sa /\ t_fork sb = t_fork sa /\
    (forall o, ~ any_end a o)) as (G1 & G2 & G3 & G4 & G5 & G6).
  { rewrite F2 in E4. clear - E2 E4 A.
    step_cases E2; tcbn_all; subst; tcbn_all; try discriminate; try contradiction.
    injection E4 as <- <- <- <-. repeat (split; [reflexivity|]). intros o X. inversion X as [? ? Y|]. inversion Y. }
  assert (never_stopped p5) as N5.
  { intros sig I. apply (N sig). rewrite Eq5. apply in_or_app. left. apply in_or_app. left. exact I. }
  assert (steady_clock p5) as S5.
  { rewrite Eq5, <- app_assoc in S. exact (steady_pre _ _ S). }
  assert (awaited sa) as [_ AW].
  { apply (exec_inv P (fun o => forall sig, o <> StopP sig) awaited) with (ops := p5) (s := init m w); auto.
    - intros; eapply awaited_step; eassumption.
    - intros y I sig ->. exact (N5 sig I).
    - split; [intros ? ?; discriminate|exact I]. }
  rewrite G1 in AW.
  (* the end lies before that *)
  assert (exists s1', step P s1 x = Some s1') as [s1' X1].
  { rewrite Eo in E. destruct (exec_split _ _ _ _ E) as (t & t' & H1 & H2 & H3). exists t'. congruence. }
  destruct (end_step _ _ _ _ X X1) as (B1 & B2 & B3 & B4 & B5 & B6 & B7).
  assert (forked_inv sa) as FIa by (apply (forked_inv_exec m w p5); exact E1).
  assert (exists c, p5 = pre ++ x :: c) as [c Ec].
  { assert (pre ++ x :: post = p5 ++ (a :: o6) ++ o7) as Ea by (rewrite <- Eo, Eq, Eq5, <- app_assoc; reflexivity).
    destruct (app_eq_app _ _ _ _ Ea) as [l [[H1 H2]|[H1 H2]]].
    - exfalso. apply B2. unfold over. rewrite H1, exec_app, E1 in E0.
      rewrite (reaped_exec l sa s1 FIa AW E0). exact I.
    - destruct l as [|y l].
      + cbn in H2. injection H2 as <- _. exfalso. exact (G6 o X).
      + cbn in H2. injection H2 as <- _. exists l. exact H1. }
  destruct (at_end pre x c o s1 p5 sa w0 st ru L S5 N5) as (K1 & K2 & K3 & K4); auto.
  { apply (prompt_app p5 ((a :: o6) ++ o7)). rewrite Eq5, <- app_assoc in Pr. exact Pr. }
  assert (t_fork s6 = t_fork sa) as TF6.
  { rewrite <- G5. apply (fork_exec o6); [apply (forked_inv_exec m w (p5 ++ [a])); exact E5| |exact E3].
    rewrite G4, AW. discriminate. }
  assert (wall sa = mono sa + D) as Wa by (apply (clock_exec p5); assumption).
  destruct (fork_before s1 pre E0) as [?|FB]; [contradiction|].
  change (2 ^ 50) with 1125899906842624 in C1.
  rewrite K1 in F3.
  destruct (judged_env (p_config P) (p_pid P) o ru w0 e La Pp B7 T3) as (J & ef & Run); [lia|lia|].
  rewrite <- F3 in Run.
  assert (Zdm : forall z, 1000 * (z / 1000) <= z < 1000 * (z / 1000) + 1000).
  { intros z. pose proof (Z.div_mod z 1000). pose proof (Z.mod_pos_bound z 1000). lia. }
  eexists _, ru, ef. split; [exact J|]. split; [exact Run|].
  assert (D + mono sa - w0 < 2147483000000) by lia.
  split.
  { intros st' ru' Ew. cbn [e_wait4] in Ew. assert (ru' = ru) as -> by congruence.
    unfold times_fit, elapsed_ms. cbn [e_start e_end]. rewrite !us_tv.
    pose proof (Zdm e). pose proof (Zdm w0). destruct T3 as (_ & _ & T3).
    unfold INT_MIN, INT_MAX in *. lia. }
  unfold elapsed_us. cbn [e_start e_end]. rewrite !us_tv. lia.
Qed.
End Delays.

Lemma real_measured c e o ru r ef :
  judged c e o ru -> env_fits e -> run c e = Returns (Val r) ef -> real_time r = elapsed_ms e.
Proof.
  intros H HF R. destruct (run_judged_result _ _ _ _ H) as (r' & ef' & Hr & He & Hre & _).
  destruct (fits_cast _ _ _ _ H HF) as (Ca & _ & _). assert (r' = r) as -> by congruence. congruence.
Qed.

Lemma life_measured lag m w ops s r o life :
  limits_accepted (p_config P) -> 0 < p_pid P -> 0 <= lag ->
  steady_clock ops -> never_stopped ops -> usages_ok ops -> clocks_fit m w s ->
  prompt P lag (init m w) ops -> exec P (init m w) ops = Some s -> returned s r -> error r = 0 ->
  lives any_end P (init m w) ops o life ->
  life - 1000 < 1000 * real_time r < life + 5 * lag + 1000.
Proof.
  intros La Pp L S N U C Pr E R Z Li.
  destruct (life_env m w lag ops s r o life) as (e & ru & ef & J & Run & Fit & B1 & B2); auto.
  rewrite (real_measured _ _ _ _ _ _ J Fit Run). unfold elapsed_ms, elapsed_us in *.
  assert (Zdm : forall z, 1000 * (z / 1000) <= z < 1000 * (z / 1000) + 1000).
  { intros z. pose proof (Z.div_mod z 1000). pose proof (Z.mod_pos_bound z 1000). lia. }
  pose proof (Zdm (us (e_end e))). pose proof (Zdm (us (e_start e))). lia.
Qed.

Lemma life_table m w ops s r o life :
  limits_accepted (p_config P) -> 0 < p_pid P ->
  steady_clock ops -> never_stopped ops -> usages_ok ops -> clocks_fit m w s ->
  exec P (init m w) ops = Some s -> returned s r -> error r = 0 ->
  lives any_end P (init m w) ops o life ->
  verdict_table (max_cpu_time (p_config P)) (max_real_time (p_config P)) (max_memory (p_config P)) o
    (cpu_time r) (real_time r) (memory r) (verdict r) /\
  match o with
  | Exited n => signal r = 0 /\ exit_code r = n
  | Killed g _ => signal r = g /\ exit_code r = 0
  | Stopped _ => True
  end.
Proof.
  intros La Pp S N U C E R Z Li. destruct (prompt_somehow m w ops s E) as [Pr L].
  destruct (life_env m w _ ops s r o life La Pp L S N U C Pr E R Z Li) as (e & ru & ef & J & Run & _).
  destruct (c01_verdict_table _ _ _ _ J) as (r1 & ef1 & R1 & _ & V1).
  destruct (c04_signal_exit_code _ _ _ _ J) as (r4 & ef4 & R4 & S4).
  assert (r1 = r) as -> by congruence. assert (r4 = r) as -> by congruence.
  split; [exact V1|]. destruct o; auto.
Qed.

Lemma own_lives P' s0 ops o life : lives own_end P' s0 ops o life -> lives any_end P' s0 ops o life.
Proof. intros (pre & x & post & s1 & A & B & C & D). exists pre, x, post, s1. repeat split; auto. constructor. exact B. Qed.

Lemma table_plain lc lr lm o c t mm v :
  verdict_table lc lr lm o c t mm v -> ~ other_signal o ->
  (exceeded lc c /\ v = 1) \/ (~ exceeded lc c /\ exceeded lr t /\ v = 2) \/
  (~ exceeded lc c /\ ~ exceeded lr t /\ exceeded lm mm /\ v = 3) \/
  (~ exceeded lc c /\ ~ exceeded lr t /\ ~ exceeded lm mm /\ failed o /\ v = 4) \/
  (~ exceeded lc c /\ ~ exceeded lr t /\ ~ exceeded lm mm /\ ~ failed o /\ v = 0).
Proof.
  intros T N. destruct o as [n|g core|g]; try exact T. cbn in T.
  assert (g <> 10 /\ g <> 11) as [N1 N2] by (split; intros ->; apply N; unfold other_signal; eauto).
  destruct g as [|p|p]; try exact T.
  do 5 (try destruct p as [p|p|]; try exact T; try (exfalso; congruence)).
Qed.

Lemma too_late m w ops s r o life :
  limits_accepted (p_config P) -> 0 < p_pid P ->
  steady_clock ops -> never_stopped ops -> usages_ok ops -> clocks_fit m w s ->
  exec P (init m w) ops = Some s -> returned s r -> error r = 0 ->
  lives any_end P (init m w) ops o life ->
  max_real_time (p_config P) <> -1 -> 1000 * max_real_time (p_config P) + 1000 <= life ->
  max_real_time (p_config P) < real_time r /\
  (~ other_signal o -> verdict r = 1 \/ verdict r = 2) /\ verdict r <> 0.
Proof.
  intros La Pp S N U C E R Z Li NU Late. destruct (prompt_somehow m w ops s E) as [Pr L].
  pose proof (life_measured _ m w ops s r o life La Pp L S N U C Pr E R Z Li) as [B _].
  destruct (life_table m w ops s r o life La Pp S N U C E R Z Li) as [V _].
  split; [lia|].
  assert (exceeded (max_real_time (p_config P)) (real_time r)) as Ex by (split; [assumption|lia]).
  assert (~ other_signal o -> verdict r = 1 \/ verdict r = 2) as Pl.
  { intros No. destruct (table_plain _ _ _ _ _ _ _ _ V No) as [[_ ?]|[(_ & _ & ?)|[(_ & X & _)|[(_ & X & _)|(_ & X & _)]]]]; auto; contradiction. }
  split; [exact Pl|].
  assert (other_signal o \/ ~ other_signal o) as [(g & core & -> & G)|No].
  { destruct o as [n|g core|g]; try (right; intros (? & ? & X & _); discriminate X).
    destruct (Z.eq_dec g 10), (Z.eq_dec g 11); try (left; do 2 eexists; split; [reflexivity|auto]; fail).
    right. intros (? & ? & X & [Y|Y]); congruence. }
  - destruct G as [-> | ->]; cbn in V; lia.
  - specialize (Pl No). lia.
Qed.

Lemma in_time lag m w ops s r o life :
  limits_accepted (p_config P) -> 0 < p_pid P -> 0 <= lag ->
  steady_clock ops -> never_stopped ops -> usages_ok ops -> clocks_fit m w s ->
  prompt P lag (init m w) ops -> exec P (init m w) ops = Some s -> returned s r -> error r = 0 ->
  lives any_end P (init m w) ops o life ->
  max_real_time (p_config P) = -1 \/ life + 5 * lag <= 1000 * max_real_time (p_config P) ->
  ~ exceeded (max_real_time (p_config P)) (real_time r) /\ verdict r <> 2 /\
  (o = Exited 0 -> ~ exceeded (max_cpu_time (p_config P)) (cpu_time r) ->
     ~ exceeded (max_memory (p_config P)) (memory r) -> verdict r = 0).
Proof.
  intros La Pp L S N U C Pr E R Z Li In.
  pose proof (life_measured lag m w ops s r o life La Pp L S N U C Pr E R Z Li) as [_ B].
  destruct (life_table m w ops s r o life La Pp S N U C E R Z Li) as [V _].
  assert (~ exceeded (max_real_time (p_config P)) (real_time r)) as Ex by (unfold exceeded; lia).
  split; [exact Ex|]. split.
  - intros V2. rewrite V2 in V.
    assert (other_signal o \/ ~ other_signal o) as [(g & core & -> & G)|No].
    { destruct o as [n|g core|g]; try (right; intros (? & ? & X & _); discriminate X).
      destruct (Z.eq_dec g 10), (Z.eq_dec g 11); try (left; do 2 eexists; split; [reflexivity|auto]; fail).
      right. intros (? & ? & X & [Y|Y]); congruence. }
    + destruct G as [-> | ->]; cbn in V; lia.
    + destruct (table_plain _ _ _ _ _ _ _ _ V No) as [[_ ?]|[(_ & X & _)|[(_ & _ & _ & ?)|[(_ & _ & _ & _ & ?)|(_ & _ & _ & _ & ?)]]]];
        try contradiction; lia.
  - intros -> Nc Nm. cbn in V.
    destruct V as [[? _]|[(_ & ? & _)|[(_ & _ & ? & _)|[(_ & _ & _ & F & _)|(_ & _ & _ & _ & ?)]]]]; try contradiction; try assumption.
Qed.

(** ** Programs without an end of their own *)
Lemma find_end m w ops : forall s, exec P (init m w) ops = Some s -> over s -> exists o life, lives any_end P (init m w) ops o life.
Proof.
  induction ops as [|x ops IH] using rev_ind; intros s E V.
  - cbn in E. injection E as <-. contradiction.
  - apply exec_snoc in E. destruct E as (t & Et & St).
    assert (over t \/ ~ over t) as [Ot|Ot] by (unfold over; destruct (proc_st t); auto).
    + destruct (IH t Et Ot) as (o & life & pre & y & post & s1 & -> & B & C & D).
      exists o, life, pre, y, (post ++ [x]), s1. repeat split; auto. rewrite <- app_assoc. reflexivity.
    + assert (exists o, any_end x o) as [o X].
      { clear - V Ot St. unfold over in *. step_cases St; tcbn_all; subst; tcbn_all; try contradiction; try (exfalso; apply Ot; exact I);
          eexists; first [apply EndKill | apply EndOwn; constructor]. }
      exists o, (mono t - t_fork t), ops, x, [], t. auto.
Qed.

Definition pending_inv (s : tstate) : Prop :=
  (over s -> kill_pending s = true) /\
  (kill_pending s = true -> exists k, In k (kills s) /\ kl_target k = TJudged).

Lemma pending_step s x s' : (forall o, ~ own_end x o) -> forked_inv s -> pending_inv s -> step P s x = Some s' -> pending_inv s'.
Proof.
  intros C F (A & B) H. unfold pending_inv, over, forked_inv in *.
  step_cases H; tcbn_all; subst; tcbn_all.
  all: try solve [exfalso; eapply C; constructor].
  all: split; try assumption; try tauto; try congruence.
  all: try (intros K; try specialize (B K); try (destruct B as (k & B1 & B2); exists k; split; [apply in_or_app; left; exact B1|exact B2])).
  all: try solve [eexists; split; [apply in_or_app; right; left; reflexivity|reflexivity]].
Qed.

Lemma endless_killed m w ops s r :
  1 <= max_real_time (p_config P) <= 2147482647 -> limits_accepted (p_config P) -> 0 < p_pid P ->
  args_intact ops -> not_interrupted ops -> steady_clock ops -> never_stopped ops -> usages_ok ops -> clocks_fit m w s ->
  exec P (init m w) ops = Some s -> returned s r -> error r = 0 -> endless ops ->
  signal r = 9 /\ exit_code r = 0 /\ (verdict r = 1 \/ verdict r = 2) /\
  (~ exceeded (max_cpu_time (p_config P)) (cpu_time r) -> verdict r = 2).
Proof.
  intros T La Pp A NI S N U C E R Z En.
  pose proof (c36_reaped P m w ops s r N E R Z) as Re.
  assert (over s) as Ov by (unfold over; rewrite Re; exact I).
  destruct (find_end m w ops s E Ov) as (o & life & Li).
  assert (o = Killed 9 false) as ->.
  { destruct Li as (pre & x & post & s1 & Eo & X & _). destruct X as [x o X|]; [|reflexivity].
    exfalso. apply (En x o X). rewrite Eo. apply in_or_app. right. left. reflexivity. }
  destruct (life_table m w ops s r _ life La Pp S N U C E R Z Li) as [V [Sg Ec]].
  assert (pending_inv s /\ forked_inv s) as [(PI1 & PI2) _].
  { apply (exec_inv P (fun x => forall o, ~ own_end x o) (fun s => pending_inv s /\ forked_inv s)) with (ops := ops) (s := init m w); auto.
    - intros s1 x s2 Cx [I1 I2] St. split; [eapply pending_step|eapply forked_inv_step]; eassumption.
    - intros x I o X. exact (En x o X I).
    - split; [split; [intros []|discriminate]|reflexivity]. }
  destruct (PI2 (PI1 Ov)) as (k & K1 & K2).
  destruct (intact_exec P T m w ops s A E) as (_ & _ & _ & _ & IP). unfold inv_parent in IP. unfold returned in R. rewrite R in IP.
  assert (forall code, code <> 0 -> Val r <> error_result code) as NE.
  { intros code Nc X. Local Transparent error_result. unfold error_result in X. Local Opaque error_result. injection X as ->. apply Nc. exact Z. }
  destruct IP as [[X _]|[[X _]|[[X _]|[_ AK]]]]; try (exfalso; refine (NE _ _ X); discriminate).
  unfold all_by_killer in AK. rewrite Forall_forall in AK. specialize (AK k K1).
  assert (verdict r = 1 \/ verdict r = 2) as V12.
  { apply (timeout_is_reported P m w ops s r k); auto. }
  split; [exact Sg|]. split; [exact Ec|]. split; [exact V12|].
  intros Nc. destruct V12 as [V1|V2]; [|exact V2]. exfalso. rewrite V1 in V. cbn in V.
  destruct V as [[? _]|[(_ & _ & ?)|[(_ & _ & _ & ?)|[(_ & _ & _ & _ & ?)|(_ & _ & _ & _ & ?)]]]]; try contradiction; lia.
Qed.

(** A program ends once. *)
Lemma ends_once m w ops s o o' life life' : exec P (init m w) ops = Some s ->
  lives any_end P (init m w) ops o life -> lives any_end P (init m w) ops o' life' -> o = o' /\ life = life'.
Proof.
  assert (forall pre x post pre' x' post' s1 s1' o o' l, ops = pre ++ x :: post -> ops = pre' ++ x' :: post' ->
    any_end x o -> any_end x' o' -> exec P (init m w) pre = Some s1 -> exec P (init m w) pre' = Some s1' ->
    exec P (init m w) ops = Some s -> pre = pre' ++ l -> o = o' /\ s1 = s1') as One.
  { intros pre x post pre' x' post' s1 s1' oo oo' l E E' X X' H H' Hs El.
    rewrite E' in Hs. destruct (exec_split _ _ _ _ _ _ Hs) as (sa & sb & Ea & Eb & Ec).
    assert (sa = s1') as -> by congruence. destruct (end_step _ _ _ _ X' Eb) as (B1 & B2 & B3 & _).
    rewrite E in E'. rewrite El in E'. rewrite <- app_assoc in E'. apply app_inv_head in E'.
    destruct l as [|y l].
    - cbn in E'. injection E' as -> _. rewrite app_nil_r in El. subst pre'. split; [|congruence].
      destruct X as [x oo [c|sg co]|]; inversion X' as [? ? Y|]; subst; try inversion Y; reflexivity.
    - exfalso. cbn in E'. injection E' as -> Ep. rewrite El in H.
      destruct (exec_split _ _ _ _ _ _ H) as (sc & sd & Ed & Ef & Eg).
      assert (sc = s1') as -> by congruence. assert (sd = sb) as -> by congruence.
      assert (forked_inv sb) as FI.
      { apply (forked_inv_exec m w (pre' ++ [x'])). rewrite exec_app, H'. cbn. rewrite Eb. reflexivity. }
      assert (over s1) as Ov.
      { apply (over_exec l sb s1 FI); [|exact Eg]. unfold over. destruct B3 as [-> | ->]; exact I. }
      assert (exists s2, step P s1 x = Some s2) as [s2 S2].
      { assert (exec P (init m w) (pre ++ x :: post) = Some s) as Hp.
        { rewrite El. rewrite <- app_assoc. cbn. rewrite exec_app, H'. cbn. rewrite Eb.
          rewrite Ep. exact Ec. }
        destruct (exec_split _ _ _ _ _ _ Hp) as (u & u' & U1 & U2 & _). exists u'.
        assert (exec P (init m w) pre = Some s1) as Hq by (rewrite El; exact H). congruence. }
      destruct (end_step _ _ _ _ X S2) as (_ & Nv & _). contradiction. }
  intros E (pre & x & post & s1 & A1 & A2 & A3 & ->) (pre' & x' & post' & s1' & B1 & B2 & B3 & ->).
  assert (pre ++ x :: post = pre' ++ x' :: post') as Q by congruence.
  destruct (app_eq_app _ _ _ _ Q) as [l [[H1 _]|[H1 _]]].
  - destruct (One pre x post pre' x' post' s1 s1' o o' l) as [-> ->]; auto.
  - destruct (One pre' x' post' pre x post s1' s1 o' o l) as [-> ->]; auto.
Qed.

(** ** A program that ends in time is the end of the matter *)
Lemma end_in_prefix m w p q sp pre x post s1 o :
  exec P (init m w) p = Some sp -> proc_st sp = Reaped -> p ++ q = pre ++ x :: post ->
  any_end x o -> exec P (init m w) pre = Some s1 -> ~ over s1 -> exists c, p = pre ++ x :: c.
Proof.
  intros E R Eq X E0 No. symmetry in Eq. destruct (app_eq_app _ _ _ _ Eq) as [l [[H1 H2]|[H1 H2]]].
  - exfalso. apply No. unfold over. rewrite H1, exec_app, E in E0.
    rewrite (reaped_exec l sp s1 (forked_inv_exec m w p sp E) R E0). exact I.
  - destruct l as [|y l].
    + exfalso. rewrite app_nil_r in H1. assert (sp = s1) as -> by congruence. apply No. unfold over. rewrite R. exact I.
    + cbn in H2. injection H2 as <- _. exists l. exact H1.
Qed.

Definition reap_inv (s : tstate) : Prop :=
  (proc_st s = Reaped -> match ppc s with PEnd _ _ _ | PCancel _ _ _ _ | PReturned _ => True | _ => False end) /\
  match ppc s with PKillCreate _ | PKillWait _ => False | _ => True end.
Lemma reap_inv_exec m w ops s : p_autoreap P = false -> calls_succeed ops -> exec P (init m w) ops = Some s -> reap_inv s.
Proof.
  intros Na C E.
  apply (exec_inv P (fun o => o <> ParentFail) reap_inv) with (ops := ops) (s := init m w); auto.
  - intros s1 o s2 N (A & B) H. unfold reap_inv in *.
    step_cases H; tcbn_all; subst; tcbn_all; try contradiction; try congruence; try (split; [intros R; try discriminate R|]; try exact I; try exact B; try (apply A; exact R)).
    all: rewrite Na in *; try discriminate.
  - intros o I ->. exact (C I).
  - split; [discriminate|exact I].
Qed.

Lemma returned_cancel m w ops s r : calls_succeed ops -> p_autoreap P = false -> exec P (init m w) ops = Some s -> ppc s = PReturned r ->
  exists pre mid s6, ops = pre ++ Parent :: mid /\ exec P (init m w) pre = Some s6 /\ (exists w0 e st ru, ppc s6 = PCancel w0 e st ru).
Proof.
  intros C Na E R.
  destruct (before m w ops s E) as (pre & a & mid & sa & sb & -> & A & Q & E1 & E2 & E3 & E4 & E5); [congruence|].
  assert (a <> ParentFail) as Nf by (intros ->; apply C; apply in_or_app; right; left; reflexivity).
  destruct (reap_inv_exec m w pre sa Na (fun I => C (in_or_app _ _ _ (or_introl I))) E1) as [_ RI].
  enough (a = Parent /\ exists w0 e st ru, ppc sa = PCancel w0 e st ru) as [-> H] by (exists pre, mid, sa; auto).
  rewrite R in E4. clear - E2 E4 A Nf RI.
  step_cases E2; tcbn_all; subst; tcbn_all; try discriminate; try contradiction; try congruence.
  all: split; [reflexivity|do 4 eexists; reflexivity].
Qed.

Lemma not_fired m w ops s :
  1 <= max_real_time (p_config P) <= 2147482647 -> args_intact ops -> not_interrupted ops ->
  exec P (init m w) ops = Some s -> match ppc s with PReturned _ => False | _ => True end ->
  mono s <= t_fork s + 1000 * max_real_time (p_config P) -> kills s = [].
Proof.
  intros T A NI E Np Le.
  destruct (inv_exec P T m w ops s A NI E) as (_ & _ & G).
  destruct (intact_exec P T m w ops s A E) as (_ & _ & _ & _ & Pa).
  pose proof (q_bounds P) as Q.
  unfold inv_parent in Pa. assert (all_by_killer (kills s)) as AK by (destruct (ppc s); try exact Pa; contradiction).
  destruct (kills s) as [|k l]; [reflexivity|].
  exfalso. inversion_clear G as [|? ? [G1 G2] _]. inversion_clear AK as [|? ? W _].
  specialize (G2 W). lia.
Qed.

Lemma in_time_unharmed lag m w ops s o life :
  1 <= max_real_time (p_config P) <= 2147482647 -> p_autoreap P = false -> 0 <= lag ->
  args_intact ops -> not_interrupted ops -> calls_succeed ops -> steady_clock ops -> never_stopped ops ->
  prompt P lag (init m w) ops -> exec P (init m w) ops = Some s -> proc_st s = Reaped ->
  lives any_end P (init m w) ops o life -> life + 5 * lag <= 1000 * max_real_time (p_config P) ->
  kills s = [].
Proof.
  intros T Na L A NI C S N Pr E Re (pre & x & post & s1 & Eo & X & E0 & ->) In.
  assert (exists s1', step P s1 x = Some s1') as [s1' X1].
  { rewrite Eo in E. destruct (exec_split _ _ _ _ _ _ E) as (t & t' & H1 & H2 & H3). exists t'. congruence. }
  destruct (end_step _ _ _ _ X X1) as (B1 & B2 & _).
  destruct (fork_before m w s1 pre E0) as [?|FB]; [contradiction|].
  (* at the end time is read *)
  assert (forall p q sp w0 st ru, ops = p ++ q -> exec P (init m w) p = Some sp -> ppc sp = PEnd w0 st ru ->
            mono sp <= t_fork sp + (mono s1 - t_fork s1) + 4 * lag /\ proc_st sp = Reaped) as AtEnd.
  { intros p q sp w0 st ru Eq Ep F.
    assert (never_stopped p) as Np by (intros sig I; apply (N sig); rewrite Eq; apply in_or_app; auto).
    assert (awaited sp) as [_ AW].
    { apply (exec_inv P (fun o => forall sig, o <> StopP sig) awaited) with (ops := p) (s := init m w); auto.
      - intros; eapply awaited_step; eassumption.
      - intros y I sig ->. exact (Np sig I).
      - split; [intros ? ?; discriminate|exact I]. }
    rewrite F in AW.
    destruct (end_in_prefix m w p q sp pre x post s1 o Ep AW) as [c Ec]; auto; [congruence|].
    rewrite Eq in S, Pr.
    destruct (at_end m w lag pre x c o s1 p sp w0 st ru L (steady_pre _ _ S) Np (prompt_app m w lag _ _ Pr) Ec X E0 Ep F) as (_ & K2 & _ & K4).
    split; [lia|exact AW]. }
  (* when the thread is cancelled *)
  assert (forall p q sp, ops = p ++ q -> exec P (init m w) p = Some sp -> (exists w0 e st ru, ppc sp = PCancel w0 e st ru) ->
            mono sp <= t_fork sp + 1000 * max_real_time (p_config P)) as AtCancel.
  { intros p q sp Eq Ep (w0 & e & st & ru & F).
    destruct (before m w p sp Ep) as (p5 & a & mid & sa & sb & Ea & Ac & Q & E1 & E2 & E3 & E4 & E5); [congruence|].
    assert (ppc sa = PEnd w0 st ru /\ mono sb = mono sa /\ proc_st sb = proc_st sa /\ t_fork sb = t_fork sa) as (G1 & G3 & G4 & G5).
    { rewrite F in E4. clear - E2 E4 Ac.
      step_cases E2; tcbn_all; subst; tcbn_all; try discriminate; try contradiction.
      injection E4 as <- <- <- <-. repeat (split; [reflexivity|]). reflexivity. }
    destruct (AtEnd p5 ((a :: mid) ++ q) sa w0 st ru) as [AE R5]; auto.
    { rewrite Eq, Ea, <- app_assoc. reflexivity. }
    assert (mono sp - mono sb <= lag) as T'.
    { rewrite Eq, Ea in Pr. apply prompt_app in Pr. rewrite snoc_app in Pr.
      apply (turn m w lag _ _ _ _ (fun _ => True) Pr E5 E3 Q); auto.
      intros s2 Es _. apply can_parent. unfold parent_step. rewrite Es, E4, F. discriminate. }
    assert (t_fork sp = t_fork sb) as TF.
    { apply (fork_exec mid); [apply (forked_inv_exec m w (p5 ++ [a])); exact E5| |exact E3]. rewrite G4, R5. discriminate. }
    lia. }
  destruct (reap_inv_exec m w ops s Na C E) as [RI _]. specialize (RI Re).
  destruct (ppc s) eqn:Pc; try contradiction.
  - destruct (AtEnd ops [] s start status ru) as [AE _]; auto; [rewrite app_nil_r; reflexivity|].
    apply (not_fired m w ops s); auto; [rewrite Pc; exact I|lia].
  - apply (not_fired m w ops s); auto; [rewrite Pc; exact I|].
    apply (AtCancel ops [] s); auto; [rewrite app_nil_r; reflexivity|]. do 4 eexists; exact Pc.
  - destruct (returned_cancel m w ops s r C Na E Pc) as (p & q & s6 & -> & E6 & Can).
    apply (cancelled_in_time P T m w p q s6 s); auto.
    apply (AtCancel p (Parent :: q) s6); auto.
Qed.
End Life.

(** ** How long an execution keeps somebody waiting *)
Fixpoint busy_us (P : tparams) (s : tstate) (ops : list op) : Z :=
  match ops with
  | [] => 0
  | o :: rest =>
      (match o with Tick d => if idle P s then 0 else Z.max 0 d | _ => 0 end) +
      match step P s o with Some s' => busy_us P s' rest | None => 0 end
  end.

Lemma busy_nonneg P ops : forall s, 0 <= busy_us P s ops.
Proof.
  induction ops as [|o ops IH]; intros s; cbn [busy_us]; [lia|].
  assert (0 <= match o with Tick d => if idle P s then 0 else Z.max 0 d | _ => 0 end) by (destruct o; try lia; destruct (idle P s); lia).
  destruct (step P s o) as [t|]; [specialize (IH t)|]; lia.
Qed.

Lemma busy_app P pre rest : forall s s1, exec P s pre = Some s1 -> busy_us P s1 rest <= busy_us P s (pre ++ rest).
Proof.
  induction pre as [|o pre IH]; intros s s1 E; cbn in E; [injection E as <-; cbn; lia|].
  cbn [app busy_us]. destruct (step P s o) as [t|]; [|discriminate]. specialize (IH t s1 E).
  assert (0 <= match o with Tick d => if idle P s then 0 else Z.max 0 d | _ => 0 end) by (destruct o; try lia; destruct (idle P s); lia).
  lia.
Qed.

Lemma busy_prompt P lag s ops : busy_us P s ops <= lag -> prompt P lag s ops.
Proof.
  intros T pre mid post s1 s2 a -> E1 E2 A _.
  pose proof (busy_app P pre (mid ++ post) s s1 E1) as B.
  enough (mono s2 - mono s1 <= busy_us P s1 (mid ++ post)) by lia.
  clear B T E1 pre s lag. revert s1 E2 A. induction mid as [|o mid IH]; intros s1 E2 A; cbn in E2.
  - injection E2 as ->. pose proof (busy_nonneg P post s2). cbn. lia.
  - cbn [app busy_us]. destruct (step P s1 o) as [t|] eqn:St; [|discriminate].
    assert (mono s2 - mono t <= busy_us P t (mid ++ post)) as B.
    { apply IH; [exact E2|]. intros m1 m2 x Em Ex. apply (A (o :: m1) m2 x); [cbn; rewrite Em; reflexivity|]. cbn. rewrite St. exact Ex. }
    enough (mono t - mono s1 <= match o with Tick d => if idle P s1 then 0 else Z.max 0 d | _ => 0 end) by lia.
    destruct (idle P s1) eqn:Id.
    { exfalso. apply (idle_no_act P s1 a Id). apply (A [] (o :: mid) s1); reflexivity. }
    destruct (clock_step P s1 o t St) as [->|[d ->]]; [destruct o; lia|].
    cbn [step] in St. destruct ((0 <? d) && _) eqn:X in St; [|discriminate]. injection St as <-. tcbn. lia.
Qed.
