(** Proofs about Model/Runner.v. *)
From Coq Require Import ZArith Bool List Lia.
From Verif.Base Require Import CInt CStr.
From Verif.Model Require Import Config Runner.
From Verif.Spec Require Import Verdict RunSpec.
Import ListNotations.
Open Scope Z_scope.

Ltac conj := repeat match goal with |- _ /\ _ => split end; try assumption; try reflexivity.

(** ** Wait-status macros *)

Lemma wtermsig_mod s : WTERMSIG s = s mod 128.
Proof. unfold WTERMSIG. change 127 with (Z.ones 7). rewrite Z.land_ones by lia. reflexivity. Qed.

Lemma wexit_mod s : WEXITSTATUS s = (s / 256) mod 256.
Proof.
  unfold WEXITSTATUS. rewrite Z.shiftr_land.
  change (Z.shiftr 65280 8) with (Z.ones 8).
  rewrite Z.land_ones by lia. rewrite Z.shiftr_div_pow2 by lia. reflexivity.
Qed.

Lemma wifsignaled_iff s : WIFSIGNALED s = true <-> 1 <= s mod 128 <= 126.
Proof.
  unfold WIFSIGNALED. change (Z.land s 127) with (WTERMSIG s). rewrite wtermsig_mod.
  rewrite Z.ltb_lt. rewrite Z.shiftr_div_pow2 by lia. change (2 ^ 1) with 2.
  pose proof (Z.mod_pos_bound s 128 ltac:(lia)) as Hb.
  set (m := s mod 128) in *. unfold cast_schar.
  destruct (Z.eq_dec m 127) as [->|Hne].
  - split; [|lia]. vm_compute. discriminate.
  - rewrite (Z.mod_small (m + 1 + 128) 256) by lia.
    replace (m + 1 + 128 - 128) with (m + 1) by lia.
    split; intros H.
    + assert (m <> 0). { intros ->. vm_compute in H. discriminate. } lia.
    + apply Z.div_str_pos. lia.
Qed.

Lemma status_signal o :
  wf_outcome o ->
  (if WIFSIGNALED (wait_status o) then WTERMSIG (wait_status o) else 0)
  = match o with Killed s _ => s | _ => 0 end.
Proof.
  intros Hw.
  destruct (WIFSIGNALED (wait_status o)) eqn:E.
  - apply wifsignaled_iff in E. rewrite wtermsig_mod.
    destruct o as [cd|s core|s]; cbn [wait_status wf_outcome] in *.
    + exfalso. replace (256 * cd) with (0 + 2 * cd * 128) in E by lia.
      rewrite Z.mod_add in E by lia. rewrite Z.mod_0_l in E; lia.
    + destruct core.
      * replace (s + 128) with (s + 1 * 128) by lia. rewrite Z.mod_add by lia.
        rewrite Z.mod_small; lia.
      * rewrite Z.add_0_r. rewrite Z.mod_small; lia.
    + exfalso. replace (256 * s + 127) with (127 + 2 * s * 128) in E by lia.
      rewrite Z.mod_add in E by lia. rewrite Z.mod_small in E; lia.
  - destruct o as [cd|s core|s]; cbn [wait_status wf_outcome] in *; try reflexivity.
    exfalso. assert (WIFSIGNALED (s + (if core then 128 else 0)) = true) as E'.
    { apply wifsignaled_iff. destruct core.
      - replace (s + 128) with (s + 1 * 128) by lia. rewrite Z.mod_add by lia.
        rewrite Z.mod_small; lia.
      - rewrite Z.add_0_r. rewrite Z.mod_small; lia. }
    congruence.
Qed.

Lemma status_exit o :
  wf_outcome o ->
  WEXITSTATUS (wait_status o)
  = match o with Exited cd => cd | Killed _ _ => 0 | Stopped s => s end.
Proof.
  intros Hw. rewrite wexit_mod. destruct o as [cd|s core|s]; cbn [wait_status wf_outcome] in *.
  - rewrite Z.mul_comm, Z.div_mul by lia. apply Z.mod_small; lia.
  - rewrite Z.div_small; [reflexivity|]. destruct core; lia.
  - replace (256 * s + 127) with (127 + s * 256) by lia.
    rewrite Z.div_add by lia. rewrite (Z.div_small 127) by lia.
    simpl. apply Z.mod_small; lia.
Qed.

(** ** Configuration check *)

Lemma bad_limit_false z :
  ((z <? 1) && negb (z =? UNLIMITED)) = false <-> limit_ok z.
Proof.
  unfold limit_ok, UNLIMITED. rewrite andb_false_iff, negb_false_iff, Z.ltb_ge, Z.eqb_eq. lia.
Qed.

Lemma config_invalid_iff c : config_invalid c = false <-> limits_accepted c.
Proof.
  unfold config_invalid, limits_accepted.
  rewrite !orb_false_iff, !bad_limit_false, Z.ltb_ge. tauto.
Qed.

(** ** Time arithmetic *)

Lemma usec_ms s u : instant_ok s u -> s * 1000 + u / 1000 = usec s u / 1000.
Proof.
  unfold usec. intros [_ Hu].
  replace (s * 1000000 + u) with (u + (s * 1000) * 1000) by lia.
  rewrite Z.div_add by lia. lia.
Qed.

Lemma usec_div s u : instant_ok s u -> cdiv u 1000 = u / 1000.
Proof. intros [_ H]. unfold cdiv. apply Z.quot_div_nonneg; lia. Qed.

Lemma usdiv_bound u : 0 <= u < 1000000 -> 0 <= u / 1000 < 1000.
Proof. intros H. split. apply Z.div_pos; lia. apply Z.div_lt_upper_bound; lia. Qed.

Lemma long_op_ok z : LONG_MIN <= z <= LONG_MAX -> long_op z = Val z.
Proof. intros H. unfold long_op. apply in_long_iff in H. rewrite H. reflexivity. Qed.

Lemma real_time_val s e :
  tv_ok s -> tv_ok e -> real_time_ms s e = Val (cast_int (us e / 1000 - us s / 1000)).
Proof.
  intros Hs He. unfold tv_ok in *. unfold real_time_ms, us.
  rewrite (usec_div _ _ Hs), (usec_div _ _ He).
  rewrite <- (usec_ms _ _ Hs), <- (usec_ms _ _ He).
  destruct Hs as [Hs1 Hs2], He as [He1 He2].
  pose proof (usdiv_bound _ Hs2). pose proof (usdiv_bound _ He2).
  change (2 ^ 50) with 1125899906842624 in *.
  rewrite long_op_ok by (unfold LONG_MIN, LONG_MAX; lia); cbn [cbind].
  rewrite long_op_ok by (unfold LONG_MIN, LONG_MAX; lia); cbn [cbind].
  rewrite long_op_ok by (unfold LONG_MIN, LONG_MAX; lia); cbn [cbind].
  rewrite long_op_ok by (unfold LONG_MIN, LONG_MAX; lia); cbn [cbind].
  rewrite long_op_ok by (unfold LONG_MIN, LONG_MAX; lia); cbn [cbind].
  do 2 f_equal. lia.
Qed.

Lemma cpu_time_val ru :
  tv_ok (ru_utime ru) -> cpu_time_ms ru = Val (cast_int (us (ru_utime ru) / 1000)).
Proof.
  intros Hs. unfold tv_ok in *. unfold cpu_time_ms, us.
  rewrite (usec_div _ _ Hs). rewrite <- (usec_ms _ _ Hs).
  destruct Hs as [Hs1 Hs2]. pose proof (usdiv_bound _ Hs2).
  change (2 ^ 50) with 1125899906842624 in *.
  rewrite long_op_ok by (unfold LONG_MIN, LONG_MAX; lia); cbn [cbind].
  rewrite long_op_ok by (unfold LONG_MIN, LONG_MAX; lia); cbn [cbind].
  reflexivity.
Qed.

Lemma memory_val ru : rss_ok ru -> memory_bytes ru = Val (ru_maxrss ru * 1024).
Proof.
  unfold rss_ok. change (2 ^ 53) with 9007199254740992.
  intros H. unfold memory_bytes. apply long_op_ok. unfold LONG_MIN, LONG_MAX. lia.
Qed.

(** Difference of floors against floor of the difference. *)
Lemma ms_diff_bounds a b :
  -1000 < 1000 * (b / 1000 - a / 1000) - (b - a) < 1000.
Proof.
  pose proof (Z.div_mod a 1000 ltac:(lia)). pose proof (Z.div_mod b 1000 ltac:(lia)).
  pose proof (Z.mod_pos_bound a 1000 ltac:(lia)). pose proof (Z.mod_pos_bound b 1000 ltac:(lia)).
  lia.
Qed.

Lemma ms_diff_nonneg a b : a <= b -> 0 <= b / 1000 - a / 1000.
Proof. intros. pose proof (Z.div_le_mono a b 1000). lia. Qed.

(** ** The verdict *)

Lemma exceeded_b lim v :
  (negb (lim =? UNLIMITED) && (lim <? v)) = true <-> exceeded lim v.
Proof.
  unfold exceeded, UNLIMITED. rewrite andb_true_iff, negb_true_iff, Z.eqb_neq, Z.ltb_lt. tauto.
Qed.

Lemma exceeded_bf lim v :
  (negb (lim =? UNLIMITED) && (lim <? v)) = false <-> ~ exceeded lim v.
Proof.
  rewrite <- exceeded_b. destruct (negb (lim =? UNLIMITED) && (lim <? v)); split; intro H;
    try discriminate; try reflexivity; try (intro; discriminate). exfalso; apply H; reflexivity.
Qed.

Definition sig_of (o : outcome) : Z := match o with Killed s _ => s | _ => 0 end.
Definition exit_of (o : outcome) : Z :=
  match o with Exited cd => cd | Killed _ _ => 0 | Stopped s => s end.

Lemma failed_b o : wf_outcome o ->
  ((negb (sig_of o =? 0)) || negb (exit_of o =? 0))%bool = true <-> failed o.
Proof.
  intros Hw. unfold failed. destruct o as [cd|s core|s]; simpl in *.
  - rewrite negb_true_iff, Z.eqb_neq. split; intros H; [intros E; injection E as ->; lia|].
    intros ->. apply H; reflexivity.
  - rewrite orb_false_r, negb_true_iff, Z.eqb_neq. split; [discriminate|lia].
  - rewrite negb_true_iff, Z.eqb_neq. split; [discriminate|lia].
Qed.

Lemma decide_generic c o cpu real mem :
  wf_outcome o -> sig_of o <> SIGSEGV ->
  let v := decide c (sig_of o) (exit_of o) cpu real mem in
  let C := exceeded (max_cpu_time c) cpu in
  let R := exceeded (max_real_time c) real in
  let M := exceeded (max_memory c) mem in
  (C /\ v = 1) \/ (~ C /\ R /\ v = 2) \/ (~ C /\ ~ R /\ M /\ v = 3) \/
  (~ C /\ ~ R /\ ~ M /\ failed o /\ v = 4) \/ (~ C /\ ~ R /\ ~ M /\ ~ failed o /\ v = 0).
Proof.
  intros Hw Hs v C R M.
  pose proof (failed_b o Hw) as HF.
  unfold v, decide. apply Z.eqb_neq in Hs. rewrite Hs.
  destruct (negb (max_cpu_time c =? UNLIMITED) && (max_cpu_time c <? cpu)) eqn:EC;
    [apply exceeded_b in EC; left; split; [exact EC|reflexivity]|apply exceeded_bf in EC].
  destruct (negb (max_real_time c =? UNLIMITED) && (max_real_time c <? real)) eqn:ER;
    [apply exceeded_b in ER; right; left; conj|apply exceeded_bf in ER].
  destruct (negb (max_memory c =? UNLIMITED) && (max_memory c <? mem)) eqn:EM;
    [apply exceeded_b in EM; do 2 right; left; conj|apply exceeded_bf in EM].
  destruct (negb (sig_of o =? 0)) eqn:E1.
  - do 3 right; left. conj. apply HF. reflexivity.
  - destruct (negb (exit_of o =? 0)) eqn:E2.
    + do 3 right; left. conj. apply HF. reflexivity.
    + do 4 right. conj. intros H. apply HF in H. discriminate.
Qed.

Lemma verdict_table_other lc lr lm o cpu real mem v :
  sig_of o <> 10 -> sig_of o <> 11 ->
  ((exceeded lc cpu /\ v = 1) \/
   (~ exceeded lc cpu /\ exceeded lr real /\ v = 2) \/
   (~ exceeded lc cpu /\ ~ exceeded lr real /\ exceeded lm mem /\ v = 3) \/
   (~ exceeded lc cpu /\ ~ exceeded lr real /\ ~ exceeded lm mem /\ failed o /\ v = 4) \/
   (~ exceeded lc cpu /\ ~ exceeded lr real /\ ~ exceeded lm mem /\ ~ failed o /\ v = 0)) ->
  verdict_table lc lr lm o cpu real mem v.
Proof.
  intros H1 H2 H. destruct o as [cd|s core|s]; simpl in *; try assumption.
  destruct s as [|p|p]; try assumption.
  do 5 (destruct p; try assumption; try (exfalso; lia)).
Qed.

(** [judge] on a well-formed outcome. *)
Lemma judge_spec c o ru s e :
  wf_outcome o -> tv_ok s -> tv_ok e -> tv_ok (ru_utime ru) -> rss_ok ru ->
  exists r, judge c (wait_status o) ru s e = Val r /\
    error r = 0 /\
    real_time r = cast_int (us e / 1000 - us s / 1000) /\
    signal r = sig_of o /\
    (sig_of o = 10 -> exit_code r = 0 /\ cpu_time r = 0 /\ memory r = 0 /\ verdict r = 5) /\
    (sig_of o <> 10 ->
       exit_code r = exit_of o /\
       cpu_time r = cast_int (us (ru_utime ru) / 1000) /\
       memory r = ru_maxrss ru * 1024) /\
    verdict_table (max_cpu_time c) (max_real_time c) (max_memory c) o
                  (cpu_time r) (real_time r) (memory r) (verdict r).
Proof.
  intros Hw Hs He Hu Hm. unfold judge.
  rewrite (real_time_val _ _ Hs He); cbn [cbind].
  rewrite (status_signal o Hw). fold (sig_of o).
  destruct (sig_of o =? SIGUSR1) eqn:E.
  - apply Z.eqb_eq in E. eexists; split; [reflexivity|]. cbn [error real_time signal exit_code
      cpu_time memory verdict]. unfold SIGUSR1 in E.
    conj; try (intros; conj; congruence); try (intros; congruence).
    destruct o as [cd|sg core|sg]; simpl in E; try discriminate. subst sg. reflexivity.
  - apply Z.eqb_neq in E. unfold SIGUSR1 in E.
    rewrite (cpu_time_val _ Hu), (memory_val _ Hm); cbn [cbind].
    rewrite (status_exit o Hw). fold (exit_of o).
    eexists; split; [reflexivity|]. cbn [error real_time signal exit_code cpu_time memory verdict].
    conj; try (intros; conj; congruence); try (intros; congruence).
    destruct (Z.eq_dec (sig_of o) 11) as [E11|N11].
    + destruct o as [cd|sg core|sg]; simpl in E11; try discriminate. subst sg.
      unfold decide. cbn [sig_of Z.eqb Pos.eqb SIGSEGV verdict_table].
      destruct (negb (max_memory c =? UNLIMITED) && (max_memory c <? ru_maxrss ru * 1024)) eqn:EM.
      * apply exceeded_b in EM. left; split; [assumption|reflexivity].
      * apply exceeded_bf in EM. right; split; [assumption|reflexivity].
    + apply verdict_table_other; try assumption.
      apply decide_generic; assumption.
Qed.

(** ** [run] *)

Lemma run_judged c e o ru :
  judged c e o ru ->
  exists ef, run c e = Returns (judge c (wait_status o) ru (e_start e) (e_end e)) ef.
Proof.
  intros (Hr & Hl & Hf & Hp & Hw & _). unfold run.
  rewrite Hr. cbn [Z.eqb negb]. apply config_invalid_iff in Hl. rewrite Hl.
  destruct (e_fork e <? 0) eqn:E1; [apply Z.ltb_lt in E1; lia|].
  destruct (e_fork e =? 0) eqn:E2; [apply Z.eqb_eq in E2; lia|].
  destruct (max_real_time c =? UNLIMITED) eqn:E3; cbn [negb andb].
  - rewrite Hw. eexists; reflexivity.
  - destruct Hp as [Hp|Hp]; [apply Z.eqb_neq in E3; unfold UNLIMITED in E3; congruence|].
    rewrite Hp. cbn [Z.eqb negb]. rewrite Hw. eexists; reflexivity.
Qed.

Lemma judged_ok c e o ru : judged c e o ru ->
  wf_outcome o /\ tv_ok (e_start e) /\ tv_ok (e_end e) /\ tv_ok (ru_utime ru) /\ rss_ok ru.
Proof.
  intros (_ & _ & _ & _ & Hw & Ho & Hs & He & H).
  destruct (H _ _ Hw) as (_ & Hu & Hm). conj.
Qed.

Lemma run_judged_result c e o ru :
  judged c e o ru ->
  exists r ef, run c e = Returns (Val r) ef /\
    error r = 0 /\
    real_time r = cast_int (elapsed_ms e) /\
    signal r = sig_of o /\
    (sig_of o = 10 -> exit_code r = 0 /\ cpu_time r = 0 /\ memory r = 0 /\ verdict r = 5) /\
    (sig_of o <> 10 ->
       exit_code r = exit_of o /\
       cpu_time r = cast_int (cpu_ms ru) /\
       memory r = ru_maxrss ru * 1024) /\
    verdict_table (max_cpu_time c) (max_real_time c) (max_memory c) o
                  (cpu_time r) (real_time r) (memory r) (verdict r).
Proof.
  intros H. destruct (run_judged _ _ _ _ H) as [ef Hrun].
  apply judged_ok in H. destruct H as (Hw & Hs & He & Hu & Hm).
  destruct (judge_spec c o ru (e_start e) (e_end e) Hw Hs He Hu Hm) as [r [Hj Hrest]].
  exists r, ef. rewrite Hrun, Hj. split; [reflexivity|exact Hrest].
Qed.

(** Every way [run] can end in the judger. *)
Lemma run_cases c e r ef :
  run c e = Returns r ef ->
  (exists code, r = Val (mkResult 0 0 0 0 0 code 0) /\
     ((code = -5 /\ e_getuid e <> 0) \/
      (code = -1 /\ e_getuid e = 0 /\ ~ limits_accepted c) \/
      (code = -2 /\ e_getuid e = 0 /\ limits_accepted c /\ e_fork e < 0) \/
      (code = -3 /\ e_getuid e = 0 /\ limits_accepted c /\ 0 < e_fork e /\
         max_real_time c <> -1 /\ e_pthread_create e <> 0) \/
      (code = -4 /\ e_getuid e = 0 /\ limits_accepted c /\ 0 < e_fork e /\
         (max_real_time c = -1 \/ e_pthread_create e = 0) /\ e_wait4 e = None)))
  \/ (e_getuid e = 0 /\ limits_accepted c /\ 0 < e_fork e /\
     (max_real_time c = -1 \/ e_pthread_create e = 0) /\
     exists st ru, e_wait4 e = Some (st, ru) /\ r = judge c st ru (e_start e) (e_end e)).
Proof.
  unfold run, error_exit, SUCCESS. cbn [init_result cpu_time real_time memory signal exit_code verdict].
  destruct (e_getuid e =? 0) eqn:E0; cbn [negb].
  2:{ intros H; injection H as <- _. left. eexists; split; [reflexivity|].
      left. apply Z.eqb_neq in E0. split; [reflexivity|assumption]. }
  apply Z.eqb_eq in E0.
  destruct (config_invalid c) eqn:E1.
  { intros H; injection H as <- _. left. eexists; split; [reflexivity|].
    right; left. conj. intro HH. apply config_invalid_iff in HH. congruence. }
  apply config_invalid_iff in E1.
  destruct (e_fork e <? 0) eqn:E2.
  { intros H; injection H as <- _. left. eexists; split; [reflexivity|].
    do 2 right; left. apply Z.ltb_lt in E2. conj. }
  apply Z.ltb_ge in E2.
  destruct (e_fork e =? 0) eqn:E3; [discriminate|]. apply Z.eqb_neq in E3.
  assert (0 < e_fork e) as Hpos by lia.
  destruct (max_real_time c =? UNLIMITED) eqn:E4; cbn [negb andb].
  - apply Z.eqb_eq in E4. destruct (e_wait4 e) as [[st ru]|] eqn:E5.
    + intros H; injection H as <- _. right. conj. left; assumption.
      exists st, ru. conj.
    + intros H; injection H as <- _. left. eexists; split; [reflexivity|].
      do 4 right. conj. left; assumption.
  - apply Z.eqb_neq in E4.
    destruct (e_pthread_create e =? 0) eqn:E6; cbn [negb].
    + apply Z.eqb_eq in E6. destruct (e_wait4 e) as [[st ru]|] eqn:E5.
      * intros H; injection H as <- _. right. conj. right; assumption.
        exists st, ru. conj.
      * intros H; injection H as <- _. left. eexists; split; [reflexivity|].
        do 4 right. conj. right; assumption.
    + apply Z.eqb_neq in E6. intros H; injection H as <- _. left. eexists; split; [reflexivity|].
      do 3 right; left. conj.
Qed.

(** Complete effect trace of [run]. *)
Lemma run_effects c e :
  match run c e with
  | Returns r ef =>
      (e_getuid e <> 0 /\ ef = [EfLogOpen (log_path c); EfLogError (-5); EfLogClose]) \/
      (e_getuid e = 0 /\ ~ limits_accepted c /\
         ef = [EfLogOpen (log_path c); EfLogError (-1); EfLogClose]) \/
      (e_getuid e = 0 /\ limits_accepted c /\ e_fork e < 0 /\
         ef = [EfLogOpen (log_path c); EfFork; EfLogError (-2); EfLogClose]) \/
      (e_getuid e = 0 /\ limits_accepted c /\ 0 < e_fork e /\ max_real_time c <> -1 /\
         e_pthread_create e <> 0 /\
         ef = [EfLogOpen (log_path c); EfFork; EfKill (e_fork e) 9; EfLogError (-3); EfLogClose]) \/
      (e_getuid e = 0 /\ limits_accepted c /\ 0 < e_fork e /\
         (max_real_time c = -1 \/ e_pthread_create e = 0) /\ e_wait4 e = None /\
         ef = [EfLogOpen (log_path c); EfFork]
              ++ (if max_real_time c =? -1 then [] else [EfThread (e_fork e) (max_real_time c)])
              ++ [EfWait (e_fork e); EfKill (e_fork e) 9; EfLogError (-4); EfLogClose]) \/
      (e_getuid e = 0 /\ limits_accepted c /\ 0 < e_fork e /\
         (max_real_time c = -1 \/ e_pthread_create e = 0) /\ e_wait4 e <> None /\
         ef = [EfLogOpen (log_path c); EfFork]
              ++ (if max_real_time c =? -1 then [] else [EfThread (e_fork e) (max_real_time c)])
              ++ [EfWait (e_fork e)]
              ++ (if max_real_time c =? -1 then [] else [EfCancel])
              ++ [EfLogClose])
  | EntersChild ef =>
      e_getuid e = 0 /\ limits_accepted c /\ e_fork e = 0 /\
      ef = [EfLogOpen (log_path c); EfFork]
  end.
Proof.
  unfold run, error_exit, UNLIMITED.
  destruct (e_getuid e =? 0) eqn:E0; cbn [negb].
  2:{ apply Z.eqb_neq in E0. left; conj. }
  apply Z.eqb_eq in E0.
  destruct (config_invalid c) eqn:E1.
  { right; left. conj. intro HH. apply config_invalid_iff in HH. congruence. }
  apply config_invalid_iff in E1.
  destruct (e_fork e <? 0) eqn:E2.
  { do 2 right; left. apply Z.ltb_lt in E2. conj. }
  apply Z.ltb_ge in E2.
  destruct (e_fork e =? 0) eqn:E3. { apply Z.eqb_eq in E3. conj. }
  apply Z.eqb_neq in E3. assert (0 < e_fork e) as Hpos by lia.
  destruct (max_real_time c =? -1) eqn:E4; cbn [negb andb].
  - apply Z.eqb_eq in E4. destruct (e_wait4 e) as [[st ru]|] eqn:E5.
    + do 5 right. conj; [left; assumption|congruence].
    + do 4 right; left. conj. left; assumption.
  - apply Z.eqb_neq in E4. destruct (e_pthread_create e =? 0) eqn:E6; cbn [negb].
    + apply Z.eqb_eq in E6. destruct (e_wait4 e) as [[st ru]|] eqn:E5.
      * do 5 right. conj; [right; assumption|congruence].
      * do 4 right; left. conj. right; assumption.
    + apply Z.eqb_neq in E6. do 3 right; left. conj.
Qed.
