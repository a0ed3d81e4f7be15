(** The judger as a whole: what a printed result says about the history. *)
From Coq Require Import ZArith Bool List Lia.
From Verif.Base Require Import CInt CStr.
From Verif.Model Require Import Config Runner Child Argtable Main Messages Timeout Judger.
From Verif.Spec Require Import Verdict RunSpec TimeoutSpec JudgerSpec.
From Verif.Proofs Require Import RunnerProofs RunnerClaims TimeoutProofs TimeoutReport.
Import ListNotations.
Open Scope list_scope.
Open Scope Z_scope.

(** ** The threads of a history *)
Definition plain_ops (ops : list gop) : list op :=
  flat_map (fun g => match g with Sys o => [o] | Foreign sig core => [Die sig core] | Execs => [] end) ops.

Section History.
Variable W : world.
Variable c : config.
Local Notation P := (params W c).

Lemma gexec_app s a b : gexec W c s (a ++ b) = match gexec W c s a with Some s' => gexec W c s' b | None => None end.
Proof. revert s. induction a as [|o a IH]; intros s; cbn; [reflexivity|]. destruct (gstep W c s o); auto. Qed.

Lemma gstep_step s g s' : gstep W c s g = Some s' -> exec P (g_t s) (plain_ops [g]) = Some (g_t s').
Proof.
  destruct g as [o|sig core|]; cbn [gstep plain_ops flat_map app exec]; intros H.
  - destruct (possible W c s o); [|discriminate]. destruct (step P (g_t s) o) as [t|]; [|discriminate]. injection H as <-. reflexivity.
  - destruct (step P (g_t s) (Die sig core)) as [t|]; [|discriminate]. injection H as <-. reflexivity.
  - destruct (g_program s); [discriminate|]. destruct (proc_st (g_t s)); try discriminate.
    destruct (set_up W c); try discriminate. injection H as <-. reflexivity.
Qed.
Lemma gexec_exec ops : forall s s', gexec W c s ops = Some s' -> exec P (g_t s) (plain_ops ops) = Some (g_t s').
Proof.
  induction ops as [|g ops IH]; intros s s' H; cbn in H; [injection H as <-; reflexivity|].
  destruct (gstep W c s g) as [s1|] eqn:G; [|discriminate].
  change (g :: ops) with ([g] ++ ops). unfold plain_ops. rewrite flat_map_app. fold (plain_ops [g]) (plain_ops ops).
  rewrite exec_app, (gstep_step _ _ _ G). apply IH, H.
Qed.
Lemma plain_in ops o : In (Sys o) ops -> In o (plain_ops ops).
Proof. intros I. apply in_flat_map. exists (Sys o). split; [exact I|left; reflexivity]. Qed.
Lemma plain_out ops o : In o (plain_ops ops) -> In (Sys o) ops \/ exists sig core, o = Die sig core.
Proof.
  intros I. apply in_flat_map in I. destruct I as ([x|sig core|] & I & J); cbn in J.
  - destruct J as [->|[]]. left. exact I.
  - destruct J as [<-|[]]. right. eauto.
  - destruct J.
Qed.

(** What became of the process, as the history tells it. *)
Definition ended (ops : list gop) (o : outcome) : Prop :=
  match o with
  | Exited n => by_the_program ops (Sys (Exit n)) \/ (exists k, set_up W c = CExit n k) \/ set_up W c = CUB
  | Killed sig core =>
      by_the_program ops (Sys (Die sig core)) \/ (exists k, set_up W c = CKilled sig k) \/ set_up W c = CUB \/
      In (Foreign sig core) ops \/ (sig = 9 /\ core = false /\ In (Sys Deliver) ops)
  | Stopped sig => In (Sys (StopP sig)) ops
  end.
Lemma by_more ops x g : by_the_program ops x -> by_the_program (ops ++ [g]) x.
Proof. intros (a & b & -> & I). exists a, (b ++ [g]). split; [rewrite <- app_assoc; reflexivity|exact I]. Qed.
Lemma ended_more ops o g : ended ops o -> ended (ops ++ [g]) o.
Proof.
  destruct o as [n|sig core|sig]; cbn [ended].
  - intros [H|H]; [left; apply by_more, H|right; exact H].
  - intros [H|[H|[H|[H|(A & B & H)]]]]; [left; apply by_more, H|tauto|tauto| |].
    + do 3 right. left. apply in_or_app. auto.
    + do 4 right. repeat split; auto. apply in_or_app. auto.
  - intros H. apply in_or_app. auto.
Qed.
Lemma by_last ops x : In Execs ops -> by_the_program (ops ++ [x]) x.
Proof. intros I. exists ops, []. auto. Qed.

Definition told (ops : list gop) (s : gstate) : Prop :=
  (g_program s = true <-> In Execs ops) /\
  (In Execs ops -> exists p a v k, set_up W c = CExec p a v k) /\
  match proc_st (g_t s) with
  | Zombie o => wf_outcome o /\ ended ops o
  | StoppedP sig _ => wf_outcome (Stopped sig) /\ ended ops (Stopped sig)
  | _ => True
  end /\
  match ppc (g_t s) with
  | PEnd _ st _ | PCancel _ _ st _ => exists o, st = wait_status o /\ wf_outcome o /\ ended ops o
  | _ => True
  end.

Local Opaque judge error_result tv wait_status.

Lemma die_allowed ops s sig core s' :
  told ops s -> possible W c s (Die sig core) = true -> step P (g_t s) (Die sig core) = Some s' ->
  wf_outcome (Killed sig core) /\ ended (ops ++ [Sys (Die sig core)]) (Killed sig core).
Proof.
  intros (B & _) Ok St. cbn [step] in St. destruct (alive (g_t s) && (1 <=? sig) && (sig <=? 64)) eqn:A; [|discriminate].
  split; [cbn; lia|]. cbn [ended]. unfold possible in Ok. destruct (g_program s).
  - left. apply by_last, B. reflexivity.
  - right. destruct (set_up W c); try discriminate; [|auto]. left. replace sig with sig0 by lia. eauto.
Qed.
Lemma exit_allowed ops s n s' :
  told ops s -> possible W c s (Exit n) = true -> step P (g_t s) (Exit n) = Some s' ->
  wf_outcome (Exited n) /\ ended (ops ++ [Sys (Exit n)]) (Exited n).
Proof.
  intros (B & _) Ok St. cbn [step] in St. destruct (proc_st (g_t s)); try discriminate.
  destruct ((0 <=? n) && (n <=? 255)) eqn:A; [|discriminate].
  split; [cbn; lia|]. cbn [ended]. unfold possible in Ok. destruct (g_program s).
  - left. apply by_last, B. reflexivity.
  - right. destruct (set_up W c); try discriminate; [|auto]. left. replace n with code by lia. eauto.
Qed.

Lemma told_step ops s g s' : told ops s -> gstep W c s g = Some s' -> told (ops ++ [g]) s'.
Proof.
  intros T H. pose proof T as (B & X & Z & Q).
  assert (forall o, ended ops o -> ended (ops ++ [g]) o) as Up by (intros; apply ended_more; assumption).
  assert (match proc_st (g_t s) with
          | Zombie o => wf_outcome o /\ ended (ops ++ [g]) o
          | StoppedP sig _ => wf_outcome (Stopped sig) /\ ended (ops ++ [g]) (Stopped sig) | _ => True end) as Z'
    by (destruct (proc_st (g_t s)); intuition).
  assert (match ppc (g_t s) with
          | PEnd _ st _ | PCancel _ _ st _ => exists o, st = wait_status o /\ wf_outcome o /\ ended (ops ++ [g]) o
          | _ => True end) as Q'
    by (destruct (ppc (g_t s)); try exact I; destruct Q as (o & Q1 & Q2 & Q3); exists o; auto).
  destruct g as [o|sig core|].
  - assert (In Execs (ops ++ [Sys o]) <-> In Execs ops) as Same.
    { rewrite in_app_iff. cbn. intuition discriminate. }
    cbn [gstep] in H. destruct (possible W c s o) eqn:Ok; [|discriminate].
    destruct (step P (g_t s) o) as [t|] eqn:St; [|discriminate]. injection H as <-.
    split; [cbn [g_program]; rewrite Same; exact B|]. split; [rewrite Same; exact X|]. cbn [g_t].
    assert (forall sig core, o = Die sig core -> wf_outcome (Killed sig core) /\ ended (ops ++ [Sys o]) (Killed sig core)) as Da
      by (intros sig core ->; eapply die_allowed; eassumption).
    assert (forall n, o = Exit n -> wf_outcome (Exited n) /\ ended (ops ++ [Sys o]) (Exited n)) as Ea
      by (intros n ->; eapply exit_allowed; eassumption).
    assert (o = Deliver -> ended (ops ++ [Sys o]) (Killed 9 false)) as De.
    { intros ->. cbn [ended]. do 4 right. repeat split; auto. apply in_or_app. right. left. reflexivity. }
    assert (forall sig, o = StopP sig -> ended (ops ++ [Sys o]) (Stopped sig)) as Se.
    { intros sig ->. cbn [ended]. apply in_or_app. right. left. reflexivity. }
    destruct s as [u pg]. cbn [g_t g_program] in *. clear B X Z Q Same Up T.
    destruct o; cbn [step] in St.
    all: unfold parent_step, parent_fail, parent_wait, killer_step, killer_fail, killer_junk, killer_cancel,
         do_cancel, do_kill, note_stale, terminate in St.
    all: repeat (match type of St with
             | context [match ?x with _ => _ end] =>
                 lazymatch x with
                 | context [match _ with _ => _ end] => fail
                 | _ => let E := fresh "E" in destruct x eqn:E; try discriminate St
                 end
             end).
    all: try discriminate St.
    all: apply (f_equal (fun x => match x with Some y => y | None => t end)) in St; cbv beta iota in St; subst t; tcbn.
    all: repeat match goal with E : ppc ?v = _ |- _ => rewrite E in *; clear E end.
    all: repeat match goal with E : proc_st ?v = _ |- _ => rewrite E in *; clear E end.
    all: try (split; [first [exact Z'|exact I]|first [exact Q'|exact I]]).
    all: try (split; [first [exact Z'|exact I]|]; eexists; split; [reflexivity|exact Z']).
    all: try (split; [|exact Q']; apply Da; reflexivity).
    all: try (split; [|exact Q']; apply Ea; reflexivity).
    all: try (split; [|exact Q']; split; [cbn; lia|apply Se; reflexivity]).
    all: try (split; [|exact Q']; split; [cbn; unfold SIGKILL; lia|apply De; reflexivity]).
  - assert (In Execs (ops ++ [Foreign sig core]) <-> In Execs ops) as Same.
    { rewrite in_app_iff. cbn. intuition discriminate. }
    cbn [gstep] in H. destruct (step P (g_t s) (Die sig core)) as [t|] eqn:St; [|discriminate]. injection H as <-.
    split; [cbn [g_program]; rewrite Same; exact B|]. split; [rewrite Same; exact X|]. cbn [g_t].
    cbn [step] in St. destruct (alive (g_t s) && (1 <=? sig) && (sig <=? 64)) eqn:A; [|discriminate]. injection St as <-.
    unfold terminate. tcbn. split; [|exact Q']. destruct (p_autoreap P); [exact I|]. split; [cbn; lia|].
    cbn [ended]. do 3 right. left. apply in_or_app. right. left. reflexivity.
  - cbn [gstep] in H. destruct (g_program s) eqn:Gp; [discriminate|]. destruct (proc_st (g_t s)) eqn:Pr; try discriminate.
    destruct (set_up W c) as [p a v k| | |] eqn:Su; try discriminate. injection H as <-. cbn [g_program g_t].
    split; [|split; [|split]].
    + split; [intros _; apply in_or_app; right; left; reflexivity|reflexivity].
    + intros _. eauto.
    + cbn [g_t]. rewrite Pr. exact I.
    + exact Q'.
Qed.

Lemma told_exec ops : forall s, gexec W c (ginit W) ops = Some s -> told ops s.
Proof.
  induction ops as [|g ops IH] using rev_ind; intros s E.
  - injection E as <-. split; [cbn; split; [discriminate|intros []]|]. split; [intros []|]. split; exact I.
  - rewrite gexec_app in E. destruct (gexec W c (ginit W) ops) as [t|]; [|discriminate]. cbn in E.
    destruct (gstep W c t g) as [t'|] eqn:St; [|discriminate]. injection E as <-.
    exact (told_step _ _ _ _ (IH _ eq_refl) St).
Qed.

(** ** The result of a history is that of [run] for what happened *)
Lemma mono_step s o s' : step P s o = Some s' -> mono s <= mono s'.
Proof. intros H. step_cases H; tcbn; lia. Qed.
Lemma mono_exec ops : forall s s', exec P s ops = Some s' -> mono s <= mono s'.
Proof.
  induction ops as [|o ops IH]; intros s s' E; cbn in E; [injection E as <-; lia|].
  destruct (step P s o) as [s1|] eqn:St; [|discriminate]. pose proof (mono_step _ _ _ St). pose proof (IH _ _ E). lia.
Qed.

Definition computed (ops : list gop) (s : gstate) (r : cres result) : Prop :=
  (exists code, r = error_result code /\ code <> 0) \/
  (exists w e st ru o, r = judge c st ru (tv w) (tv e) /\ st = wait_status o /\ wf_outcome o /\ ended ops o /\
     usage_ok ru /\ w_wall W <= w /\ w <= e /\ e - (w_wall W - w_mono W) <= mono (g_t s)).

Lemma computed_exec ops : forall s r,
  (forall d, ~ In (Sys (SetClock d)) ops) -> (forall ru, In (Sys (Wait ru)) ops -> usage_ok ru) ->
  gexec W c (ginit W) ops = Some s -> ppc (g_t s) = PReturned r -> computed ops s r.
Proof.
  induction ops as [|g ops IH] using rev_ind; intros s r C U E R.
  - injection E as <-. discriminate.
  - rewrite gexec_app in E. destruct (gexec W c (ginit W) ops) as [t|] eqn:Et; [|discriminate]. cbn in E.
    destruct (gstep W c t g) as [t'|] eqn:St; [|discriminate]. injection E as <-.
    assert (forall d, ~ In (Sys (SetClock d)) ops) as C' by (intros d I; apply (C d), in_or_app; auto).
    assert (forall ru, In (Sys (Wait ru)) ops -> usage_ok ru) as U' by (intros ru I; apply U, in_or_app; auto).
    assert (mono (g_t t) <= mono (g_t t')) as Mo by (eapply mono_exec, gstep_step; exact St).
    assert (ppc (g_t t) = PReturned r -> computed (ops ++ [g]) t' r) as Old.
    { intros Rt. destruct (IH t r C' U' eq_refl Rt) as [H|(w & e & st & ru & o & H1 & H2 & H3 & H4 & H5 & H6 & H7 & H8)]; [left; exact H|].
      right. exists w, e, st, ru, o. repeat (split; [first [assumption|apply ended_more; assumption]|]). lia. }
    pose proof (told_exec ops t Et) as (_ & _ & _ & Tl).
    pose proof (time_exec P (w_mono W) (w_wall W) (plain_ops ops) (g_t t)) as Ti.
    destruct Ti as (_ & _ & _ & Pt).
    { intros d I. apply plain_out in I. destruct I as [I|(sg & co & I)]; [exact (C' d I)|discriminate]. }
    { intros ru I. apply plain_out in I. destruct I as [I|(sg & co & I)]; [exact (U' ru I)|discriminate]. }
    { exact (gexec_exec ops _ _ Et). }
    assert (forall o u, step P (g_t t) o = Some u -> ppc u = PReturned r -> mono u = mono (g_t t') -> computed (ops ++ [g]) t' r) as K.
    { intros o u Su Ru Mu. destruct (ppc (g_t t)) eqn:Pp.
      all: try (apply Old; rewrite <- Ru; clear - Su Pp; destruct t as [t pg]; cbn [g_t] in *; step_cases Su; tcbn_all; congruence).
      all: try (exfalso; clear - Su Ru Pp; destruct t as [t pg]; cbn [g_t] in *; step_cases Su; tcbn_all; congruence).
      all: try (left; clear - Su Ru Pp; destruct t as [t pg]; cbn [g_t] in *; step_cases Su; tcbn_all; try congruence;
        injection Ru as <-; eexists; (split; [reflexivity|discriminate])).
      right. destruct Tl as (o' & Q1 & Q2 & Q3). cbn [par_time] in Pt. destruct Pt as (B1 & B2 & B3 & _).
      exists start, end_, status, ru, o'.
      split. { clear - Su Ru Pp. destruct t as [t pg]. cbn [g_t] in *. step_cases Su; tcbn_all; try congruence; injection Ru as <-; inversion Pp; reflexivity. }
      repeat (split; [first [assumption|apply ended_more; assumption|lia]|]). lia. }
    destruct g as [o|sig core|]; cbn [gstep] in St.
    + destruct (possible W c t o); [|discriminate]. destruct (step P (g_t t) o) as [u|] eqn:Su; [|discriminate]. injection St as <-. exact (K o u Su R eq_refl).
    + destruct (step P (g_t t) (Die sig core)) as [u|] eqn:Su; [|discriminate]. injection St as <-. exact (K _ u Su R eq_refl).
    + destruct (g_program t); [discriminate|]. destruct (proc_st (g_t t)); try discriminate. destruct (set_up W c); try discriminate.
      injection St as <-. apply Old. exact R.
Qed.

Lemma ran_judged ops s r :
  limits_accepted c -> world_ok W -> measurable W (Ran c ops s) ->
  gexec W c (ginit W) ops = Some s -> ppc (g_t s) = PReturned (Val r) -> error r = 0 ->
  exists e o ru ef, judged c e o ru /\ env_fits e /\ run c e = Returns (Val r) ef /\ ended ops o /\
    0 <= elapsed_us e <= mono (g_t s) - w_mono W.
Proof.
  intros L (Pp & _) (C & U & (W0 & W1 & Fit)) E R Z.
  destruct (computed_exec ops s _ C U E R) as [(code & H & N)|(w & e & st & ru & o & Ej & -> & Wf & En & Uo & B1 & B2 & B3)].
  - exfalso. apply N. Local Transparent error_result. unfold error_result in H. injection H as ->. exact Z.
  - assert (2 ^ 50 = 1125899906842624) as P50 by reflexivity. rewrite P50 in W1. clear P50.
    destruct (judged_env c (w_pid W) o ru w e L Pp Wf Uo) as (J & ef & Run); [lia|lia|].
    rewrite <- Ej in Run. eexists _, o, ru, ef. split; [exact J|].
    assert (Zdm : forall z, 1000 * (z / 1000) <= z < 1000 * (z / 1000) + 1000).
    { intros z. pose proof (Z.div_mod z 1000). pose proof (Z.mod_pos_bound z 1000). lia. }
    split.
    { intros st' ru' X. cbn [e_wait4] in X. assert (ru' = ru) as -> by congruence. unfold times_fit, elapsed_ms. cbn [e_start e_end].
      rewrite !us_tv. pose proof (Zdm e). pose proof (Zdm w). unfold INT_MIN, INT_MAX. split; [lia|]. destruct Uo as (_ & _ & Uo). exact Uo. }
    split; [exact Run|]. split; [exact En|]. unfold elapsed_us. cbn [e_start e_end]. rewrite !us_tv. lia.
Qed.
End History.
