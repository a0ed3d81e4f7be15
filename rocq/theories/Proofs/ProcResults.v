(** C86, C87: results, and histories in which limits and reports mislead. *)
From Coq Require Import ZArith Bool List Arith Lia.
From Verif.Base Require Import CInt CStr.
From Verif.Model Require Import Config Runner Processes.
From Verif.Spec Require Import ProcSpec.
From Verif.Proofs Require Import ProcBase ProcLimit ProcAccount.
Import ListNotations.
Open Scope Z_scope.

(** ** Reports *)
Lemma usage_cpu : forall r v, 0 <= tot r -> cpu_time_ms (usage r) = Val v -> v = cast_int (tot r / 1000).
Proof.
  intros r v N H. unfold cpu_time_ms, usage in H. cbn [ru_utime tv_sec tv_usec] in H. fold (tot r) in H.
  unfold long_op, cbind in H. destruct (in_long (tot r / 1000000 * 1000)); [|discriminate].
  match type of H with context [in_long ?a] => destruct (in_long a); [|discriminate] end.
  injection H as <-. f_equal. unfold cdiv.
  pose proof (Z.mod_pos_bound (tot r) 1000000 ltac:(lia)) as B.
  rewrite Z.quot_div_nonneg by lia.
  rewrite (Z.div_mod (tot r) 1000000) at 3 by lia.
  replace (1000000 * (tot r / 1000000) + tot r mod 1000000) with
    (tot r mod 1000000 + (tot r / 1000000 * 1000) * 1000) by lia.
  rewrite Z.div_add by lia. lia.
Qed.
Lemma cast_int_le : forall z, 0 <= z -> cast_int z <= z.
Proof.
  intros z N. unfold cast_int, U32_MOD.
  pose proof (Z.mod_le (z + 2147483648) 4294967296 ltac:(lia) ltac:(lia)). lia.
Qed.
Lemma reported_inv : forall w x s e res, reported w x s e = Some (Val res) ->
  exists r status, get w x = Some r /\ r_parent r = Judge /\ r_end r = Some status /\
    judge (r_conf r) status (usage r) s e = Val res.
Proof.
  intros w x s e res H. unfold reported in H. destruct (get w x) as [r|]; [|discriminate].
  destruct (r_parent r) eqn:P; try discriminate. destruct (r_end r) as [st|] eqn:E; [|discriminate].
  exists r, st. repeat split; auto. congruence.
Qed.
Lemma judge_fields : forall c st ru s e res, judge c st ru s e = Val res ->
  (signal res = SIGUSR1 /\ cpu_time res = 0 /\ memory res = 0 /\ verdict res = SYSTEM_ERROR) \/
  (signal res <> SIGUSR1 /\ cpu_time_ms ru = Val (cpu_time res) /\ memory res = ru_maxrss ru * 1024 /\
   verdict res = decide c (signal res) (exit_code res) (cpu_time res) (real_time res) (memory res)).
Proof.
  intros c st ru s e res H. unfold judge in H. destruct (real_time_ms s e) as [real|]; [|discriminate]. cbn [cbind] in H.
  set (sig := if WIFSIGNALED st then WTERMSIG st else 0) in *.
  destruct (Z.eqb_spec sig SIGUSR1) as [E|E].
  - injection H as <-. left. cbn. auto.
  - right. destruct (cpu_time_ms ru) as [cpu|]; [|discriminate]. cbn [cbind] in H.
    unfold memory_bytes, long_op in H. destruct (in_long (ru_maxrss ru * 1024)); [|discriminate]. cbn [cbind] in H.
    injection H as <-. cbn. auto.
Qed.

Lemma cpu_at_most : forall evs w x s e res, history [] evs = Some w ->
  reported w x s e = Some (Val res) -> cpu_time res <= spent [x] evs / 1000.
Proof.
  intros evs w x s e res H R. apply reported_inv in R. destruct R as (r & st & G & _ & _ & J).
  pose proof (time_at_most evs w x r H G) as (N & L).
  assert (D : tot r / 1000 <= spent [x] evs / 1000) by (apply Z.div_le_mono; lia).
  pose proof (Z.div_pos (tot r) 1000 N ltac:(lia)) as P.
  destruct (judge_fields _ _ _ _ _ _ J) as [(_ & -> & _)|(_ & C & _)]; [lia|].
  apply usage_cpu in C; [|exact N]. rewrite C. pose proof (cast_int_le _ P). lia.
Qed.
Lemma cpu_exact : forall evs w x s e res, history [] evs = Some w -> all_waited_for x evs w ->
  spent [x] evs / 1000 <= INT_MAX -> reported w x s e = Some (Val res) -> signal res <> SIGUSR1 ->
  cpu_time res = spent [x] evs / 1000.
Proof.
  intros evs w x s e res H A B R S'. apply reported_inv in R. destruct R as (r & st & G & _ & _ & J).
  pose proof (time_at_most evs w x r H G) as (N & _). pose proof (time_exact evs w x r H G A) as E.
  destruct (judge_fields _ _ _ _ _ _ J) as [(C & _)|(_ & C & _)]; [contradiction|].
  apply usage_cpu in C; [|exact N]. rewrite C, E. apply cast_int_id. rewrite <- E.
  pose proof (Z.div_pos (tot r) 1000 N ltac:(lia)). rewrite <- E in B. unfold INT_MIN. lia.
Qed.
(** A process keeps its configuration. *)
Lemma conf_step : forall x w e w' r', step w e = Some w' -> (x < List.length w)%nat -> get w' x = Some r' ->
  exists r, get w x = Some r /\ r_conf r' = r_conf r.
Proof.
  intros x w e w' r' T L G. apply step_stepped in T.
  assert (Put : forall p r0 r1, get w p = Some r0 -> r_conf r1 = r_conf r0 -> get (put w p (Some r1)) x = Some r' ->
    exists r, get w x = Some r /\ r_conf r' = r_conf r).
  { intros p r0 r1 Gp C E. rewrite get_put in E by eauto using get_lt.
    destruct (Nat.eqb_spec x p) as [->|M]; [injection E as <-; eauto | eauto]. }
  assert (Gone : forall p r0, get w p = Some r0 -> get (put w p None) x = Some r' ->
    exists r, get w x = Some r /\ r_conf r' = r_conf r).
  { intros p r0 Gp E. rewrite get_put in E by eauto using get_lt. destruct (Nat.eqb x p); [discriminate|eauto]. }
  destruct e; cbn [stepped] in T;
    try (destruct T as (r0 & G0 & T); repeat match goal with K : _ /\ _ |- _ => destruct K end; subst w';
         solve [eapply Put; [exact G0 | | exact G]; reflexivity | eapply Gone; [exact G0 | exact G]]).
  - destruct T as (-> & _ & _ & _ & K). rewrite K in G. destruct (Nat.eqb_spec x (List.length w)); [lia|eauto].
  - destruct T as (r0 & G0 & _ & -> & _ & _ & _ & K). rewrite K in G. destruct (Nat.eqb_spec x (List.length w)); [lia|eauto].
  - destruct T as (r0 & G0 & _ & _ & _ & K). rewrite K in G. destruct (Nat.eqb_spec x p) as [->|M].
    + injection G as <-. eauto.
    + destruct (get w x) as [t|]; [|discriminate]. exists t. split; [reflexivity|]. cbn in G.
      destruct (r_parent t) as [|p'|]; [|destruct (Nat.eqb p' p)|]; injection G as <-; reflexivity.
  - destruct T as (r0 & s & G0 & Gs & _ & _ & _ & _ & _ & _ & K). rewrite K in G. destruct (Nat.eqb_spec x p) as [->|M].
    + injection G as <-. eauto.
    + destruct (Nat.eqb x q); [discriminate|eauto].
  - destruct T as (s & p & G0 & _ & _ & ->). eapply Gone; eauto.
Qed.
Lemma conf_history : forall evs w x c m r, history [] evs = Some w -> In (Starts x c m) evs -> get w x = Some r -> r_conf r = c.
Proof.
  intros evs. induction evs as [|e evs IH] using rev_ind; intros w x c m r H I G; [destruct I|].
  apply history_snoc in H. destruct H as (v & V & T). apply in_app_or in I. destruct I as [I|[->|[]]].
  - destruct (started _ _ _ _ _ V I) as (L & _). destruct (conf_step x v e w r T L G) as (r0 & G0 & ->). eauto.
  - apply step_stepped in T. destruct T as (-> & _ & _ & _ & K). rewrite K, Nat.eqb_refl in G. injection G as <-. reflexivity.
Qed.
Lemma cpu_verdict : forall evs w x c m s e res, history [] evs = Some w -> In (Starts x c m) evs -> all_waited_for x evs w ->
  spent [x] evs / 1000 <= INT_MAX -> max_cpu_time c <> UNLIMITED -> max_cpu_time c < spent [x] evs / 1000 ->
  reported w x s e = Some (Val res) -> signal res <> SIGUSR1 -> signal res <> SIGSEGV ->
  verdict res = CPU_TIME_LIMIT_EXCEEDED.
Proof.
  intros evs w x c m s e res H I A B Nu Lt R S1 S2.
  pose proof (cpu_exact evs w x s e res H A B R S1) as E.
  apply reported_inv in R. destruct R as (r & st & G & _ & _ & J).
  destruct (judge_fields _ _ _ _ _ _ J) as [(C & _)|(_ & _ & _ & V)]; [contradiction|].
  rewrite V, (conf_history _ _ _ _ _ _ H I G). unfold decide. destruct (Z.eqb_spec (signal res) SIGSEGV); [contradiction|].
  destruct (Z.eqb_spec (max_cpu_time c) UNLIMITED); [contradiction|].
  destruct (Z.ltb_spec (max_cpu_time c) (cpu_time res)); [reflexivity|lia].
Qed.
Lemma memory_most : forall evs w x c m s e res, history [] evs = Some w -> In (Starts x c m) evs ->
  reported w x s e = Some (Val res) -> memory res <= 1024 * largest [x] evs.
Proof.
  intros evs w x c m s e res H I R. apply reported_inv in R. destruct R as (r & st & G & _ & _ & J).
  pose proof (memory_at_most _ _ _ _ _ _ H I G) as M.
  destruct (judge_fields _ _ _ _ _ _ J) as [(_ & _ & -> & _)|(_ & _ & -> & _)]; [lia|].
  cbn [usage ru_maxrss]. fold (mem r). lia.
Qed.
Lemma memory_is : forall evs w x c m s e res, history [] evs = Some w -> In (Starts x c m) evs -> all_waited_for x evs w ->
  reported w x s e = Some (Val res) -> signal res <> SIGUSR1 -> memory res = 1024 * largest [x] evs.
Proof.
  intros evs w x c m s e res H I A R S1. apply reported_inv in R. destruct R as (r & st & G & _ & _ & J).
  pose proof (memory_exact _ _ _ _ _ _ H I G A) as M.
  destruct (judge_fields _ _ _ _ _ _ J) as [(C & _)|(_ & _ & -> & _)]; [contradiction|].
  cbn [usage ru_maxrss]. fold (mem r). lia.
Qed.
(** The judger's own memory is the least. *)
Lemma peak_step : forall x w e w' r r', step w e = Some w' -> get w x = Some r -> get w' x = Some r' -> r_peak r <= r_peak r'.
Proof.
  intros x w e w' r r' T G G'. apply step_stepped in T.
  assert (Put : forall p r0 r1, get w p = Some r0 -> r_peak r0 <= r_peak r1 -> get (put w p (Some r1)) x = Some r' ->
    r_peak r <= r_peak r').
  { intros p r0 r1 Gp C E. rewrite get_put in E by eauto using get_lt.
    destruct (Nat.eqb_spec x p) as [->|M]; [rewrite G in Gp; injection Gp as <-; injection E as <-; exact C|].
    rewrite G in E. injection E as <-. lia. }
  assert (Gone : forall p r0, get w p = Some r0 -> get (put w p None) x = Some r' -> r_peak r <= r_peak r').
  { intros p r0 Gp E. rewrite get_put in E by eauto using get_lt. destruct (Nat.eqb x p); [discriminate|].
    rewrite G in E. injection E as <-. lia. }
  destruct e; cbn [stepped] in T;
    try (destruct T as (r0 & G0 & T); repeat match goal with K : _ /\ _ |- _ => destruct K end; subst w';
         solve [eapply Put; [exact G0 | | exact G']; cbn; lia | eapply Gone; [exact G0 | exact G']]).
  - destruct T as (-> & _ & _ & _ & K). rewrite K in G'. pose proof (get_lt _ _ _ G).
    destruct (Nat.eqb_spec x (List.length w)); [lia|]. rewrite G in G'. injection G' as <-. lia.
  - destruct T as (r0 & G0 & _ & -> & _ & _ & _ & K). rewrite K in G'. pose proof (get_lt _ _ _ G).
    destruct (Nat.eqb_spec x (List.length w)); [lia|]. rewrite G in G'. injection G' as <-. lia.
  - destruct T as (r0 & G0 & _ & _ & _ & K). rewrite K in G'. destruct (Nat.eqb_spec x p) as [->|M].
    + injection G' as <-. rewrite G in G0. injection G0 as <-. cbn. lia.
    + rewrite G in G'. cbn in G'. destruct (r_parent r) as [|p'|]; [|destruct (Nat.eqb p' p)|]; injection G' as <-; cbn; lia.
  - destruct T as (r0 & s & G0 & Gs & _ & _ & _ & _ & _ & _ & K). rewrite K in G'. destruct (Nat.eqb_spec x p) as [->|M].
    + injection G' as <-. rewrite G in G0. injection G0 as <-. cbn. lia.
    + destruct (Nat.eqb x q); [discriminate|]. rewrite G in G'. injection G' as <-. lia.
  - destruct T as (s & p & G0 & _ & _ & ->). exact (Gone q s G0 G').
Qed.
Lemma peak_start : forall evs w x c m r, history [] evs = Some w -> In (Starts x c m) evs -> get w x = Some r -> m <= r_peak r.
Proof.
  intros evs. induction evs as [|e evs IH] using rev_ind; intros w x c m r H I G; [destruct I|].
  apply history_snoc in H. destruct H as (v & V & T). apply in_app_or in I. destruct I as [I|[->|[]]].
  - destruct (started _ _ _ _ _ V I) as (L & _). destruct (conf_step x v e w r T L G) as (r0 & G0 & _).
    pose proof (IH _ _ _ _ _ V I G0). pose proof (peak_step x v e w r0 r T G0 G). lia.
  - apply step_stepped in T. destruct T as (-> & _ & _ & _ & K). rewrite K, Nat.eqb_refl in G. injection G as <-. cbn. lia.
Qed.
Lemma memory_least : forall evs w x c m s e res, history [] evs = Some w -> In (Starts x c m) evs ->
  reported w x s e = Some (Val res) -> signal res <> SIGUSR1 ->
  1024 * m <= memory res /\
  (max_memory c <> UNLIMITED -> max_memory c < 1024 * m -> verdict res <> SUCCESS).
Proof.
  intros evs w x c m s e res H I R S1. apply reported_inv in R. destruct R as (r & st & G & _ & _ & J).
  pose proof (peak_start _ _ _ _ _ _ H I G) as M.
  destruct (judge_fields _ _ _ _ _ _ J) as [(C & _)|(_ & _ & Em & V)]; [contradiction|].
  cbn [usage ru_maxrss] in Em. assert (L : 1024 * m <= memory res) by lia. split; [exact L|].
  intros Nu Lt. rewrite V, (conf_history _ _ _ _ _ _ H I G). unfold decide.
  destruct (Z.eqb_spec (max_memory c) UNLIMITED); [contradiction|].
  destruct (Z.ltb_spec (max_memory c) (memory res)); [|lia]. cbn [negb andb].
  repeat match goal with |- context [if ?b then _ else _] => destruct b end; discriminate.
Qed.

(** A program of one process needs no waiting. *)
Lemma alone_waited : forall evs w x, history [] evs = Some w -> get w x <> None -> (forall q call, ~ In (Forks x q call) evs) ->
  (forall e, In e evs -> lets_go [x] e = false) /\ family x evs = [x].
Proof.
  intros evs w x H X F.
  assert (Fam : family x evs = [x]).
  { clear H X. unfold family. induction evs as [|e evs IH]; [reflexivity|]. cbn [fold_left].
    assert (E : grow [x] e = [x]).
    { destruct e; try reflexivity. cbn. destruct (Nat.eqb_spec p x) as [->|N]; [|reflexivity].
      exfalso. eapply (F q). left. reflexivity. }
    rewrite E. apply IH. intros q call Q. apply (F q call). right. exact Q. }
  split; [|exact Fam]. clear F Fam. revert w H X. induction evs as [|e evs IH] using rev_ind; intros w H X a A; [destruct A|].
  apply history_snoc in H. destruct H as (v & V & T). apply in_app_or in A. destruct A as [A|[<-|[]]].
  - destruct (get v x) as [r|] eqn:G.
    + apply (IH v V); [congruence|exact A].
    + destruct (get w x) as [r|] eqn:Gw; [|congruence]. destruct (made x v e w r T G Gw) as (L & _).
      destruct (lets_go [x] a) eqn:LG; [|reflexivity]. exfalso. clear IH e w T Gw r X.
      assert (Q : exists s w1 w2, step w1 a = Some w2 /\ get w1 x = Some s /\ (List.length w1 <= List.length v)%nat).
      { clear L G. revert v V. induction evs as [|b evs IH] using rev_ind; intros v V; [destruct A|].
        apply history_snoc in V. destruct V as (v1 & V1 & T1). apply in_app_or in A.
        assert (Lv : (List.length v1 <= List.length v)%nat).
        { apply step_stepped in T1. destruct b; cbn [stepped] in T1;
            repeat match goal with K : exists _, _ |- _ => destruct K
                                 | K : _ /\ _ |- _ => destruct K end; subst;
            rewrite ?put_length, ?app_length, ?map_length; lia. }
        destruct A as [A|[->|[]]].
        - destruct (IH A v1 V1) as (s & w1 & w2 & H1 & H2 & H3). exists s, w1, w2. repeat split; auto. lia.
        - pose proof (step_stepped _ _ _ T1) as D. destruct a; cbn in LG; try discriminate; rewrite orb_false_r in LG;
            apply Nat.eqb_eq in LG; subst q; cbn [stepped] in D.
          + destruct D as (s & p & D & _). exists s, v1, v. auto.
          + destruct D as (s & D & _). exists s, v1, v. auto. }
      destruct Q as (s & w1 & w2 & _ & Gs & Ls). apply get_lt in Gs. lia.
  - destruct (lets_go [x] e) eqn:LG; [|reflexivity]. exfalso. apply X. pose proof (step_stepped _ _ _ T) as D.
    destruct e; cbn in LG; try discriminate; rewrite orb_false_r in LG; apply Nat.eqb_eq in LG; subst q; cbn [stepped] in D.
    + destruct D as (s & p & D & _ & _ & ->). apply get_put_same. eapply get_lt; eauto.
    + destruct D as (s & D & _ & _ & ->). apply get_put_same. eapply get_lt; eauto.
Qed.
Lemma single_process : forall evs w x s e res, history [] evs = Some w -> reported w x s e = Some (Val res) ->
  (forall q call, ~ In (Forks x q call) evs) -> all_waited_for x evs w.
Proof.
  intros evs w x s e res H R F. apply reported_inv in R. destruct R as (r & _ & G & _).
  destruct (alone_waited evs w x H ltac:(congruence) F) as (A & Fam). unfold all_waited_for. rewrite Fam.
  split; [exact A|]. intros q [->|[]] N. congruence.
Qed.
