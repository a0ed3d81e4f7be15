(** Consequences of the characterisations of [run]. *)
From Coq Require Import ZArith Bool List Lia.
From Verif.Base Require Import CInt CStr.
From Verif.Model Require Import Config Runner.
From Verif.Spec Require Import Verdict RunSpec.
From Verif.Proofs Require Import RunnerProofs.
Import ListNotations.
Open Scope Z_scope.

Lemma verdict_table_inj lc lr lm o cpu real mem v w :
  verdict_table lc lr lm o cpu real mem v -> verdict_table lc lr lm o cpu real mem w -> v = w.
Proof.
  intros Hv Hw. destruct o as [cd|s core|s]; simpl in Hv, Hw.
  - intuition congruence.
  - destruct s as [|p|p]; try (intuition congruence).
    do 4 (destruct p; try (intuition congruence)).
  - intuition congruence.
Qed.

Lemma table_success lc lr lm o cpu real mem :
  wf_outcome o ->
  verdict_table lc lr lm o cpu real mem 0 <->
  o = Exited 0 /\ ~ exceeded lc cpu /\ ~ exceeded lr real /\ ~ exceeded lm mem.
Proof.
  intros Hw. split.
  - intros H.
    assert (forall P, ((exceeded lc cpu /\ 0 = 1) \/
      (~ exceeded lc cpu /\ exceeded lr real /\ 0 = 2) \/
      (~ exceeded lc cpu /\ ~ exceeded lr real /\ exceeded lm mem /\ 0 = 3) \/
      (~ exceeded lc cpu /\ ~ exceeded lr real /\ ~ exceeded lm mem /\ P /\ 0 = 4) \/
      (~ exceeded lc cpu /\ ~ exceeded lr real /\ ~ exceeded lm mem /\ ~ P /\ 0 = 0)) ->
      ~ P /\ ~ exceeded lc cpu /\ ~ exceeded lr real /\ ~ exceeded lm mem) as HH
      by (intros P; intuition lia).
    assert (~ failed o /\ ~ exceeded lc cpu /\ ~ exceeded lr real /\ ~ exceeded lm mem) as [HF Hx].
    { destruct o as [cd|s core|s]; simpl in H.
      - apply HH; exact H.
      - destruct s as [|p|p]; try (apply HH; exact H).
        do 4 (destruct p; try (apply HH; exact H)); intuition lia.
      - apply HH; exact H. }
    split; [|exact Hx].
    unfold failed in HF. destruct o as [cd|s core|s].
    + destruct (Z.eq_dec cd 0) as [->|N]; [reflexivity|]. exfalso. apply HF. intros E; injection E; lia.
    + exfalso. apply HF. discriminate.
    + exfalso. apply HF. discriminate.
  - intros (-> & H1 & H2 & H3). simpl. do 4 right. unfold failed. conj. intros N; apply N; reflexivity.
Qed.

Lemma sig_of_10 o : sig_of o = 10 <-> exists core, o = Killed 10 core.
Proof.
  split.
  - destruct o; simpl; intros H; try discriminate. subst. eexists; reflexivity.
  - intros [core ->]. reflexivity.
Qed.

Lemma table_system lc lr lm o cpu real mem :
  verdict_table lc lr lm o cpu real mem 5 <-> sig_of o = 10.
Proof.
  split.
  - destruct o as [cd|s core|s]; simpl; try (intuition lia).
    destruct s as [|p|p]; try (intuition lia).
    do 4 (destruct p; try (intuition lia)).
  - intros H. apply sig_of_10 in H. destruct H as [core ->]. reflexivity.
Qed.

Lemma table_memory lc lr lm o cpu real mem :
  verdict_table lc lr lm o cpu real mem 3 -> exceeded lm mem.
Proof.
  destruct o as [cd|s core|s]; simpl; try (intuition lia).
  destruct s as [|p|p]; try (intuition lia).
  do 4 (destruct p; try (intuition lia)).
Qed.

Lemma table_real lc lr lm o cpu real mem :
  verdict_table lc lr lm o cpu real mem 2 -> exceeded lr real.
Proof.
  destruct o as [cd|s core|s]; simpl; try (intuition lia).
  destruct s as [|p|p]; try (intuition lia).
  do 4 (destruct p; try (intuition lia)).
Qed.

Lemma table_cpu lc lr lm o cpu real mem :
  verdict_table lc lr lm o cpu real mem 1 -> exceeded lc cpu.
Proof.
  destruct o as [cd|s core|s]; simpl; try (intuition lia).
  destruct s as [|p|p]; try (intuition lia).
  do 4 (destruct p; try (intuition lia)).
Qed.

(** A returned result either is an error result or comes from [judged]. *)
Lemma run_returns c e r ef :
  env_ok e -> run c e = Returns (Val r) ef ->
  (error r <> 0 /\ r = mkResult 0 0 0 0 0 (error r) 0 /\
     In (error r) [-1; -2; -3; -4; -5]) \/
  (error r = 0 /\ exists o ru, judged c e o ru).
Proof.
  intros He Hr. destruct (run_cases _ _ _ _ Hr) as [[code [Hv Hc]]|H].
  - injection Hv as ->. left. cbn [error].
    assert (In code [-1; -2; -3; -4; -5]) as Hin.
    { simpl. intuition lia. }
    split; [|split; [reflexivity|exact Hin]]. simpl in Hin. lia.
  - right. destruct H as (H1 & H2 & H3 & H4 & st & ru & H5 & H6).
    destruct (proj2 (proj2 He) _ _ H5) as ((o & Ho & ->) & _).
    assert (judged c e o ru) as HJ by (unfold judged; conj).
    split; [|exists o, ru; exact HJ].
    destruct (run_judged_result _ _ _ _ HJ) as (r' & ef' & Hr' & Herr & _).
    congruence.
Qed.

Lemma judged_inj c e o ru o' ru' :
  judged c e o ru -> judged c e o' ru' -> o = o' /\ ru = ru'.
Proof.
  intros (_ & _ & _ & _ & H & W & _) (_ & _ & _ & _ & H' & W' & _).
  rewrite H in H'. injection H' as Hs ->. split; [|reflexivity].
  clear - Hs W W'.
  destruct o as [cd|s core|s], o' as [cd'|s' core'|s'];
    cbn [wait_status wf_outcome] in *; try destruct core; try destruct core'; try lia;
    f_equal; lia.
Qed.

Lemma fits_cast c e o ru : judged c e o ru -> env_fits e ->
  cast_int (elapsed_ms e) = elapsed_ms e /\ cast_int (cpu_ms ru) = cpu_ms ru /\ 0 <= cpu_ms ru.
Proof.
  intros HJ HF. pose proof HJ as (_ & _ & _ & _ & Hw & _).
  destruct (judged_ok _ _ _ _ HJ) as (_ & _ & _ & Hu & _).
  destruct (HF _ _ Hw) as [H1 H2].
  assert (0 <= cpu_ms ru) as H0.
  { unfold cpu_ms, us, usec. destruct Hu as [A B]. apply Z.div_pos; nia. }
  split; [apply cast_int_id; assumption|]. split; [|assumption].
  apply cast_int_id. unfold INT_MIN. lia.
Qed.

(** C02 *)
Lemma success_iff c e r ef :
  env_ok e -> env_fits e -> run c e = Returns (Val r) ef ->
  (error r = 0 /\ verdict r = 0) <->
  (exists ru, judged c e (Exited 0) ru /\
     ~ exceeded (max_cpu_time c) (cpu_ms ru) /\
     ~ exceeded (max_real_time c) (elapsed_ms e) /\
     ~ exceeded (max_memory c) (ru_maxrss ru * 1024)).
Proof.
  intros He Hf Hr. split.
  - intros [Herr Hv]. destruct (run_returns _ _ _ _ He Hr) as [[H _]|[_ (o & ru & HJ)]]; [congruence|].
    destruct (run_judged_result _ _ _ _ HJ) as (r' & ef' & Hr' & _ & Hreal & _ & _ & Hm & HT).
    rewrite Hr in Hr'. injection Hr' as <- _.
    destruct (fits_cast _ _ _ _ HJ Hf) as (Ca & Cb & _).
    destruct (judged_ok _ _ _ _ HJ) as (Hw & _).
    rewrite Hv in HT. apply (table_success _ _ _ _ _ _ _ Hw) in HT. destruct HT as (-> & A & B & C).
    destruct Hm as (_ & Hc & Hme); [simpl; lia|].
    exists ru. rewrite Hreal, Ca in B. rewrite Hc, Cb in A. rewrite Hme in C. conj.
  - intros (ru & HJ & A & B & C).
    destruct (run_judged_result _ _ _ _ HJ) as (r' & ef' & Hr' & Herr & Hreal & _ & _ & Hm & HT).
    rewrite Hr in Hr'. injection Hr' as <- _.
    destruct (fits_cast _ _ _ _ HJ Hf) as (Ca & Cb & _).
    destruct (judged_ok _ _ _ _ HJ) as (Hw & _).
    destruct Hm as (_ & Hc & Hme); [simpl; lia|].
    split; [assumption|]. rewrite Hreal, Ca, Hc, Cb, Hme in HT.
    eapply verdict_table_inj; [exact HT|]. apply table_success; conj.
Qed.

(** C08 *)
Lemma elapsed_bounds e :
  -1000 < 1000 * elapsed_ms e - elapsed_us e < 1000.
Proof. unfold elapsed_ms, elapsed_us. apply ms_diff_bounds. Qed.

Lemma elapsed_nonneg e : 0 <= elapsed_us e -> 0 <= elapsed_ms e.
Proof. unfold elapsed_ms, elapsed_us. intros. apply ms_diff_nonneg. lia. Qed.

(** ** The claims *)

Lemma c01_verdict_table c e o ru :
  judged c e o ru ->
  exists r ef, run c e = Returns (Val r) ef /\ error r = 0 /\
    verdict_table (max_cpu_time c) (max_real_time c) (max_memory c) o
                  (cpu_time r) (real_time r) (memory r) (verdict r).
Proof.
  intros H. destruct (run_judged_result _ _ _ _ H) as (r & ef & Hr & He & _ & _ & _ & _ & HT).
  exists r, ef. conj.
Qed.

Lemma c01_measured c e o ru :
  judged c e o ru -> env_fits e -> (forall core, o <> Killed 10 core) ->
  exists r ef, run c e = Returns (Val r) ef /\
    cpu_time r = cpu_ms ru /\ real_time r = elapsed_ms e /\ memory r = 1024 * ru_maxrss ru.
Proof.
  intros H HF Hn. destruct (run_judged_result _ _ _ _ H) as (r & ef & Hr & He & Hre & _ & _ & Hm & _).
  destruct (fits_cast _ _ _ _ H HF) as (Ca & Cb & _).
  destruct Hm as (_ & Hc & Hme).
  { intros E. apply sig_of_10 in E. destruct E as [core ->]. apply (Hn core). reflexivity. }
  exists r, ef. rewrite Hre, Hc, Hme. conj. lia.
Qed.

Lemma c03_error_exclusive c e r ef :
  run c e = Returns (Val r) ef ->
  (error r = 0 \/ In (error r) [-1; -2; -3; -4; -5]) /\
  (error r <> 0 ->
     cpu_time r = 0 /\ real_time r = 0 /\ memory r = 0 /\ signal r = 0 /\
     exit_code r = 0 /\ verdict r = 0).
Proof.
  intros Hr. destruct (run_cases _ _ _ _ Hr) as [[code [Hv Hc]]|H].
  - injection Hv as ->. cbn. split; [|intros; conj]. right. intuition lia.
  - destruct H as (_ & _ & _ & _ & st & ru & _ & Hj).
    assert (error r = 0) as E.
    { unfold judge, cbind in Hj.
      destruct (real_time_ms _ _); [|discriminate].
      destruct (_ =? SIGUSR1); [injection Hj as ->; reflexivity|].
      destruct (cpu_time_ms _); [|discriminate].
      destruct (memory_bytes _); [|discriminate].
      injection Hj as ->; reflexivity. }
    split; [left; exact E|congruence].
Qed.

Lemma c03_error_code c e r ef :
  run c e = Returns (Val r) ef ->
  (error r = ROOT_REQUIRED <-> e_getuid e <> 0) /\
  (error r = INVALID_CONFIG <-> e_getuid e = 0 /\ ~ limits_accepted c) /\
  (error r = FORK_FAILED <-> e_getuid e = 0 /\ limits_accepted c /\ e_fork e < 0) /\
  (error r = PTHREAD_FAILED <->
     e_getuid e = 0 /\ limits_accepted c /\ 0 < e_fork e /\ max_real_time c <> -1 /\
     e_pthread_create e <> 0) /\
  (error r = WAIT_FAILED <->
     e_getuid e = 0 /\ limits_accepted c /\ 0 < e_fork e /\
     (max_real_time c = -1 \/ e_pthread_create e = 0) /\ e_wait4 e = None) /\
  (error r = SUCCESS <->
     e_getuid e = 0 /\ limits_accepted c /\ 0 < e_fork e /\
     (max_real_time c = -1 \/ e_pthread_create e = 0) /\ e_wait4 e <> None).
Proof.
  intros Hr. unfold ROOT_REQUIRED, INVALID_CONFIG, FORK_FAILED, PTHREAD_FAILED, WAIT_FAILED, SUCCESS.
  destruct (run_cases _ _ _ _ Hr) as [[code [Hv Hc]]|H].
  - injection Hv as ->. cbn [error].
    assert (0 < e_fork e -> ~ e_fork e < 0) by lia.
    destruct Hc as [Hc|[Hc|[Hc|[Hc|Hc]]]];
      conj; split; intuition (try lia; try congruence).
  - destruct H as (H1 & H2 & H3 & H4 & st & ru & H5 & Hj).
    assert (error r = 0) as E.
    { unfold judge, cbind in Hj.
      destruct (real_time_ms _ _); [|discriminate].
      destruct (_ =? SIGUSR1); [injection Hj as ->; reflexivity|].
      destruct (cpu_time_ms _); [|discriminate].
      destruct (memory_bytes _); [|discriminate].
      injection Hj as ->; reflexivity. }
    rewrite E.
    conj; split; intuition (try lia; try congruence).
Qed.

Lemma c04_signal_exit_code c e o ru :
  judged c e o ru ->
  exists r ef, run c e = Returns (Val r) ef /\
    match o with
    | Exited n => signal r = 0 /\ exit_code r = n
    | Killed s _ => signal r = s /\ exit_code r = 0
    | Stopped s => signal r = 0 /\ exit_code r = s /\ verdict r <> 0
    end.
Proof.
  intros H. destruct (run_judged_result _ _ _ _ H) as (r & ef & Hr & He & _ & Hs & H10 & Hn & HT).
  exists r, ef. split; [assumption|].
  destruct (judged_ok _ _ _ _ H) as (Hw & _).
  destruct o as [n|s core|s]; simpl in Hs, H10, Hn.
  - destruct Hn as (Hx & _); [lia|]. conj.
  - split; [assumption|]. destruct (Z.eq_dec s 10) as [E|N].
    + apply H10; assumption.
    + apply Hn; assumption.
  - destruct Hn as (Hx & _); [lia|]. conj.
    intros E. rewrite E in HT. apply (table_success _ _ _ _ _ _ _ Hw) in HT. destruct HT; discriminate.
Qed.

Lemma c05_system_error c e r ef :
  env_ok e -> run c e = Returns (Val r) ef ->
  (verdict r = SYSTEM_ERROR <-> exists core ru, judged c e (Killed 10 core) ru) /\
  (verdict r = SYSTEM_ERROR ->
     error r = 0 /\ signal r = 10 /\ exit_code r = 0 /\ cpu_time r = 0 /\ memory r = 0 /\
     real_time r = cast_int (elapsed_ms e)).
Proof.
  intros Hok Hr. unfold SYSTEM_ERROR.
  destruct (run_returns _ _ _ _ Hok Hr) as [(H & Hm & _)|[Herr (o & ru & HJ)]].
  - assert (verdict r = 0) as V by (rewrite Hm; reflexivity). rewrite V. conj.
    + split; [discriminate|]. intros (core & ru & HJ).
      destruct (run_judged_result _ _ _ _ HJ) as (r' & ef' & Hr' & Herr & _).
      congruence.
    + discriminate.
  - destruct (run_judged_result _ _ _ _ HJ) as (r' & ef' & Hr' & He & Hre & Hs & H10 & Hn & HT).
    rewrite Hr in Hr'. injection Hr' as <- _. conj.
    + split.
      * intros V. rewrite V in HT. apply table_system in HT. apply sig_of_10 in HT.
        destruct HT as [core ->]. exists core, ru. assumption.
      * intros (core & ru' & HJ').
        destruct (judged_inj _ _ _ _ _ _ HJ HJ') as [-> _]. simpl in HT. assumption.
    + intros V. rewrite V in HT. apply table_system in HT.
      destruct (H10 HT) as (A & B & C & _). rewrite HT in Hs. conj.
Qed.

Lemma c06_memory c e o ru :
  judged c e o ru ->
  exists r ef, run c e = Returns (Val r) ef /\
    ((forall core, o <> Killed 10 core) -> memory r = 1024 * ru_maxrss ru) /\
    (verdict r = MEMORY_LIMIT_EXCEEDED -> exceeded (max_memory c) (memory r)).
Proof.
  intros H. destruct (run_judged_result _ _ _ _ H) as (r & ef & Hr & He & _ & _ & _ & Hm & HT).
  exists r, ef. conj.
  - intros Hn. destruct Hm as (_ & _ & Hme).
    { intros E. apply sig_of_10 in E. destruct E as [core ->]. apply (Hn core). reflexivity. }
    lia.
  - intros V. rewrite V in HT. eapply table_memory. exact HT.
Qed.

Lemma c06_memory_overflow c e st ru :
  e_getuid e = 0 -> limits_accepted c -> 0 < e_fork e -> max_real_time c = -1 ->
  e_wait4 e = Some (st, ru) -> tv_ok (e_start e) -> tv_ok (e_end e) -> tv_ok (ru_utime ru) ->
  0 <= ru_maxrss ru -> st = 0 ->
  ((exists ef, run c e = Returns UB ef) <-> 2 ^ 53 <= ru_maxrss ru).
Proof.
  intros H1 H2 H3 H4 H5 Hs He Hu Hp Hst.
  assert (exists ef, run c e = Returns (judge c st ru (e_start e) (e_end e)) ef) as [ef Hrun].
  { unfold run. rewrite H1. cbn [Z.eqb negb]. apply config_invalid_iff in H2. rewrite H2.
    destruct (e_fork e <? 0) eqn:E1; [apply Z.ltb_lt in E1; lia|].
    destruct (e_fork e =? 0) eqn:E2; [apply Z.eqb_eq in E2; lia|].
    rewrite H4. cbn [UNLIMITED Z.eqb Pos.eqb negb andb]. rewrite H5. eexists; reflexivity. }
  rewrite Hrun. subst st. unfold judge.
  rewrite (real_time_val _ _ Hs He), (cpu_time_val _ Hu). cbn.
  unfold memory_bytes, long_op. change (2 ^ 53) with 9007199254740992.
  destruct (in_long (ru_maxrss ru * 1024)) eqn:E; cbn.
  - apply in_long_iff in E. unfold LONG_MIN, LONG_MAX in E. split; [intros [x Hx]; discriminate|lia].
  - assert (~ (LONG_MIN <= ru_maxrss ru * 1024 <= LONG_MAX)) as N
      by (intros X; apply in_long_iff in X; congruence).
    unfold LONG_MIN, LONG_MAX in N. split; [lia|]. intros _. eexists; reflexivity.
Qed.

Lemma c07_unlimited_verdict c e r ef :
  env_ok e -> run c e = Returns (Val r) ef ->
  (max_cpu_time c = UNLIMITED -> verdict r <> CPU_TIME_LIMIT_EXCEEDED) /\
  (max_real_time c = UNLIMITED -> verdict r <> REAL_TIME_LIMIT_EXCEEDED) /\
  (max_memory c = UNLIMITED -> verdict r <> MEMORY_LIMIT_EXCEEDED).
Proof.
  intros Hok Hr. unfold UNLIMITED.
  unfold CPU_TIME_LIMIT_EXCEEDED, REAL_TIME_LIMIT_EXCEEDED, MEMORY_LIMIT_EXCEEDED.
  destruct (run_returns _ _ _ _ Hok Hr) as [(H & Hm & _)|[Herr (o & ru & HJ)]].
  - assert (verdict r = 0) as V by (rewrite Hm; reflexivity). rewrite V. conj; intros; lia.
  - destruct (run_judged_result _ _ _ _ HJ) as (r' & ef' & Hr' & He & Hre & Hs & H10 & Hn & HT).
    rewrite Hr in Hr'. injection Hr' as <- _. conj; intros E V; rewrite V in HT.
    + apply table_cpu in HT. destruct HT as [N _]. congruence.
    + apply table_real in HT. destruct HT as [N _]. congruence.
    + apply table_memory in HT. destruct HT as [N _]. congruence.
Qed.

Lemma c07_unlimited_no_thread c e r ef :
  run c e = Returns r ef -> max_real_time c = UNLIMITED ->
  ~ In EfCancel ef /\ forall pid t, ~ In (EfThread pid t) ef.
Proof.
  intros Hr Hm. pose proof (run_effects c e) as H. rewrite Hr in H. unfold UNLIMITED in Hm.
  rewrite Hm in H. cbn [Z.eqb Pos.eqb app] in H.
  assert (forall P : effect -> Prop, ~ P (EfLogOpen (log_path c)) -> ~ P EfFork ->
    ~ P (EfKill (e_fork e) 9) -> ~ P EfLogClose -> ~ P (EfWait (e_fork e)) ->
    (forall k, ~ P (EfLogError k)) -> forall x, P x -> ~ In x ef) as G.
  { intros P P1 P2 P3 P4 P5 P6 x Px Hin.
    assert (forall k, EfLogError k = x -> False) as P7 by (intros k <-; exact (P6 k Px)).
    destruct H as [H|[H|[H|[H|[H|H]]]]];
      repeat match goal with HH : _ /\ _ |- _ => destruct HH end; subst ef;
      cbn in Hin;
      repeat match goal with HH : _ \/ _ |- _ => destruct HH end;
      subst; try contradiction; try (eapply P7; reflexivity); try (eapply P6; eassumption). }
  split.
  - apply (G (fun x => x = EfCancel)); cbn; try (intros; discriminate); reflexivity.
  - intros pid t. apply (G (fun x => x = EfThread pid t)); cbn; try (intros; discriminate); reflexivity.
Qed.

Lemma c08_real_time c e o ru :
  judged c e o ru -> INT_MIN <= elapsed_ms e <= INT_MAX ->
  exists r ef, run c e = Returns (Val r) ef /\
    -1000 < 1000 * real_time r - elapsed_us e < 1000 /\
    (0 <= elapsed_us e -> 0 <= real_time r).
Proof.
  intros H HF. destruct (run_judged_result _ _ _ _ H) as (r & ef & Hr & _ & Hre & _).
  exists r, ef. rewrite Hre, cast_int_id by assumption.
  split; [assumption|split].
  - apply elapsed_bounds.
  - apply elapsed_nonneg.
Qed.

Lemma c08_monotone c e1 e2 o1 ru1 o2 ru2 r1 r2 ef1 ef2 :
  judged c e1 o1 ru1 -> judged c e2 o2 ru2 ->
  INT_MIN <= elapsed_ms e1 -> elapsed_ms e2 <= INT_MAX ->
  us (e_start e1) = us (e_start e2) -> us (e_end e1) <= us (e_end e2) ->
  run c e1 = Returns (Val r1) ef1 -> run c e2 = Returns (Val r2) ef2 ->
  real_time r1 <= real_time r2.
Proof.
  intros H1 H2 F1 F2 Es Ee R1 R2.
  destruct (run_judged_result _ _ _ _ H1) as (r & ef & Hr & _ & Hre & _).
  rewrite R1 in Hr. injection Hr as <- _.
  destruct (run_judged_result _ _ _ _ H2) as (r' & ef' & Hr' & _ & Hre' & _).
  rewrite R2 in Hr'. injection Hr' as <- _.
  assert (elapsed_ms e1 <= elapsed_ms e2) as L.
  { unfold elapsed_ms. rewrite Es. pose proof (Z.div_le_mono _ _ 1000 ltac:(lia) Ee). lia. }
  rewrite Hre, Hre', !cast_int_id by lia. assumption.
Qed.

Lemma c09_cpu_time c e o ru :
  judged c e o ru -> env_fits e -> (forall core, o <> Killed 10 core) ->
  exists r ef, run c e = Returns (Val r) ef /\
    1000 * cpu_time r <= us (ru_utime ru) < 1000 * (cpu_time r + 1).
Proof.
  intros H HF Hn. destruct (c01_measured _ _ _ _ H HF Hn) as (r & ef & Hr & Hc & _).
  exists r, ef. split; [assumption|]. rewrite Hc. unfold cpu_ms.
  pose proof (Z.div_mod (us (ru_utime ru)) 1000 ltac:(lia)).
  pose proof (Z.mod_pos_bound (us (ru_utime ru)) 1000 ltac:(lia)). lia.
Qed.

Lemma c09_total_cpu c e o ru :
  judged c e o ru -> env_fits e -> max_cpu_time c <> UNLIMITED ->
  us (ru_stime ru) = 0 -> total_cpu_us ru >= 1000 * (max_cpu_time c + 1) ->
  (forall core, o <> Killed 10 core) -> (forall core, o <> Killed 11 core) ->
  exists r ef, run c e = Returns (Val r) ef /\ error r = 0 /\ verdict r = CPU_TIME_LIMIT_EXCEEDED.
Proof.
  intros H HF Hl Hs Ht Hn Hn'.
  destruct (run_judged_result _ _ _ _ H) as (r & ef & Hr & Herr & Hre & _ & _ & Hm & HT).
  destruct (fits_cast _ _ _ _ H HF) as (Ca & Cb & _).
  assert (sig_of o <> 10) as N10.
  { intros E. apply sig_of_10 in E. destruct E as [core ->]. apply (Hn core). reflexivity. }
  assert (sig_of o <> 11) as N11.
  { intros E. destruct o as [cd|s core|s]; simpl in E; try discriminate. subst s.
    apply (Hn' core). reflexivity. }
  destruct (Hm N10) as (_ & Hc & _).
  exists r, ef. conj. unfold CPU_TIME_LIMIT_EXCEEDED.
  eapply verdict_table_inj; [exact HT|].
  apply verdict_table_other; try assumption. left. split; [|reflexivity].
  unfold exceeded. split; [assumption|]. rewrite Hc, Cb. unfold cpu_ms.
  unfold total_cpu_us in Ht. rewrite Hs in Ht.
  assert (max_cpu_time c + 1 <= us (ru_utime ru) / 1000) by (apply Z.div_le_lower_bound; lia).
  lia.
Qed.

Lemma c10_config_check c e :
  e_getuid e = 0 ->
  (limits_accepted c <-> (exists ef, (run c e = EntersChild ef \/ exists r, run c e = Returns r ef) /\ In EfFork ef)) /\
  (~ limits_accepted c <-> exists ef, run c e = Returns (Val (mkResult 0 0 0 0 0 INVALID_CONFIG 0)) ef).
Proof.
  intros H0. pose proof (run_effects c e) as H.
  assert (limits_accepted c \/ ~ limits_accepted c) as D.
  { destruct (config_invalid c) eqn:E.
    - right. intros X. apply config_invalid_iff in X. congruence.
    - left. apply config_invalid_iff. assumption. }
  split.
  - split.
    + intros L. destruct (run c e) as [r ef|ef] eqn:Hr.
      * exists ef. split; [right; exists r; reflexivity|].
        destruct H as [H|[H|[H|[H|[H|H]]]]];
          repeat match goal with HH : _ /\ _ |- _ => destruct HH end;
          try (exfalso; tauto); try congruence; subst ef; cbn; tauto.
      * exists ef. split; [left; reflexivity|]. destruct H as (_ & _ & _ & ->). cbn; tauto.
    + intros (ef & HR & Hin). destruct D as [D|D]; [assumption|exfalso].
      assert (run c e = Returns (Val (mkResult 0 0 0 0 0 (-1) 0))
                [EfLogOpen (log_path c); EfLogError (-1); EfLogClose]) as HX.
      { unfold run. rewrite H0. cbn [Z.eqb negb].
        destruct (config_invalid c) eqn:E; [reflexivity|]. apply config_invalid_iff in E. tauto. }
      rewrite HX in HR. destruct HR as [HR|[r HR]]; [discriminate|].
      injection HR as _ <-. cbn in Hin. intuition discriminate.
  - split.
    + intros N. eexists. unfold run. rewrite H0. cbn [Z.eqb negb].
      destruct (config_invalid c) eqn:E; [reflexivity|]. apply config_invalid_iff in E. tauto.
    + intros [ef Hr] L.
      destruct (c03_error_code _ _ _ _ Hr) as (_ & [A _] & _). cbn in A.
      destruct (A eq_refl) as [_ N]. exact (N L).
Qed.

Lemma c11_root_required c e :
  e_getuid e <> 0 ->
  exists ef, run c e = Returns (Val (mkResult 0 0 0 0 0 ROOT_REQUIRED 0)) ef /\
    ~ In EfFork ef /\ (forall pid t, ~ In (EfThread pid t) ef) /\ (forall pid s, ~ In (EfKill pid s) ef).
Proof.
  intros H. eexists. split.
  - unfold run. apply Z.eqb_neq in H. rewrite H. reflexivity.
  - cbn. intuition discriminate.
Qed.

Lemma c12_failures c e :
  e_getuid e = 0 -> limits_accepted c ->
  (e_fork e < 0 ->
     exists ef, run c e = Returns (Val (mkResult 0 0 0 0 0 FORK_FAILED 0)) ef /\
       (forall pid s, ~ In (EfKill pid s) ef)) /\
  (0 < e_fork e -> max_real_time c <> UNLIMITED -> e_pthread_create e <> 0 ->
     exists ef, run c e = Returns (Val (mkResult 0 0 0 0 0 PTHREAD_FAILED 0)) ef /\
       In (EfKill (e_fork e) SIGKILL) ef /\ ~ In (EfWait (e_fork e)) ef) /\
  (0 < e_fork e -> (max_real_time c = UNLIMITED \/ e_pthread_create e = 0) -> e_wait4 e = None ->
     exists ef, run c e = Returns (Val (mkResult 0 0 0 0 0 WAIT_FAILED 0)) ef /\
       In (EfKill (e_fork e) SIGKILL) ef).
Proof.
  intros H0 HL. apply config_invalid_iff in HL. conj.
  - intros Hf. eexists. split.
    + unfold run. rewrite H0, HL. cbn [Z.eqb negb]. apply Z.ltb_lt in Hf. rewrite Hf. reflexivity.
    + cbn. intuition discriminate.
  - intros Hf Hm Hp. eexists. split.
    + unfold run. rewrite H0, HL. cbn [Z.eqb negb].
      destruct (e_fork e <? 0) eqn:E1; [apply Z.ltb_lt in E1; lia|].
      destruct (e_fork e =? 0) eqn:E2; [apply Z.eqb_eq in E2; lia|].
      apply Z.eqb_neq in Hm, Hp. rewrite Hm, Hp. cbn [negb andb]. reflexivity.
    + cbn. intuition discriminate.
  - intros Hf Hm Hw. unfold run. rewrite H0, HL. cbn [Z.eqb negb].
    destruct (e_fork e <? 0) eqn:E1; [apply Z.ltb_lt in E1; lia|].
    destruct (e_fork e =? 0) eqn:E2; [apply Z.eqb_eq in E2; lia|].
    rewrite Hw. destruct (max_real_time c =? UNLIMITED) eqn:E3; cbn [negb andb].
    + eexists. split; [reflexivity|]. cbn. tauto.
    + apply Z.eqb_neq in E3. destruct Hm as [Hm|Hm]; [contradiction|]. rewrite Hm. cbn [Z.eqb negb].
      eexists. split; [reflexivity|]. cbn. tauto.
Qed.
