(** Two judgements. *)
From Coq Require Import ZArith Bool List Lia String.
From Verif.Base Require Import CInt CStr.
From Verif.Model Require Import Config Runner.
From Verif.Spec Require Import Verdict RunSpec CompareSpec.
From Verif.Proofs Require Import RunnerProofs RunnerClaims.
Import ListNotations.
Open Scope string_scope.
Open Scope Z_scope.

Lemma run_without_error c e r ef : run c e = Returns (Val r) ef -> error r = 0 ->
  exists st ru, e_wait4 e = Some (st, ru) /\ judge c st ru (e_start e) (e_end e) = Val r.
Proof.
  unfold run, error_exit. intros H E.
  destruct (negb (e_getuid e =? 0)); [injection H as <- _; discriminate|].
  destruct (config_invalid c); [injection H as <- _; discriminate|].
  destruct (e_fork e <? 0); [injection H as <- _; discriminate|].
  destruct (e_fork e =? 0); [discriminate|].
  destruct (_ && _); [injection H as <- _; discriminate|].
  destruct (e_wait4 e) as [[st ru]|]; [|injection H as <- _; discriminate].
  exists st, ru. split; [reflexivity|]. injection H as H _. exact H.
Qed.

Lemma judge_parts c st ru s e r : judge c st ru s e = Val r ->
  exists real, real_time_ms s e = Val real /\
  let sig := if WIFSIGNALED st then WTERMSIG st else 0 in
  if sig =? SIGUSR1 then r = mkResult 0 real 0 sig 0 SUCCESS SYSTEM_ERROR
  else exists cpu mem, cpu_time_ms ru = Val cpu /\ memory_bytes ru = Val mem /\
    r = mkResult cpu real mem sig (WEXITSTATUS st) SUCCESS (decide c sig (WEXITSTATUS st) cpu real mem).
Proof.
  unfold judge. destruct (real_time_ms s e) as [real|]; [|discriminate]. cbn [cbind]. intro H. exists real. split; [reflexivity|].
  cbn zeta in *. destruct (_ =? SIGUSR1); [injection H as <-; reflexivity|].
  destruct (cpu_time_ms ru) as [cpu|]; [|discriminate]. destruct (memory_bytes ru) as [mem|]; [|discriminate].
  cbn [cbind] in H. injection H as <-. exists cpu, mem. repeat split.
Qed.

Lemma same_measurements c c' e r ef r' ef' :
  run c e = Returns (Val r) ef -> run c' e = Returns (Val r') ef' -> error r = 0 -> error r' = 0 ->
  cpu_time r = cpu_time r' /\ real_time r = real_time r' /\ memory r = memory r' /\ signal r = signal r' /\ exit_code r = exit_code r'.
Proof.
  intros H H' E E'. apply run_without_error in H; [|exact E]. apply run_without_error in H'; [|exact E'].
  destruct H as (st & ru & W & J), H' as (st' & ru' & W' & J'). rewrite W in W'. injection W' as <- <-.
  apply judge_parts in J, J'. destruct J as (real & R & J), J' as (real' & R' & J'). rewrite R in R'. injection R' as <-.
  cbn zeta in *. destruct (_ =? SIGUSR1); [subst; cbn; auto|].
  destruct J as (cpu & mem & A & B & ->), J' as (cpu' & mem' & A' & B' & ->). rewrite A in A'. rewrite B in B'.
  injection A' as <-. injection B' as <-. cbn. auto.
Qed.

Lemma over_less l l' a b : allows_more l l' -> a <= b ->
  negb (l' =? UNLIMITED) && (l' <? a) = true -> negb (l =? UNLIMITED) && (l <? b) = true.
Proof. unfold allows_more, UNLIMITED. rewrite !andb_true_iff, !negb_true_iff, !Z.eqb_neq, !Z.ltb_lt. lia. Qed.

(** [c] with the larger use against [c'] with the smaller one. *)
Lemma decide_generous c c' sig ec cpu real mem cpu' real' mem' : more_generous c c' -> cpu' <= cpu -> real' <= real -> mem' <= mem ->
  may_become (decide c sig ec cpu real mem) (decide c' sig ec cpu' real' mem').
Proof.
  intros (A & B & C) LA LB LC. pose proof (over_less _ _ _ _ A LA) as A'. pose proof (over_less _ _ _ _ B LB) as B'.
  pose proof (over_less _ _ _ _ C LC) as C'. unfold decide, may_become. clear - A' B' C'.
  generalize dependent (negb (max_memory c' =? UNLIMITED) && (max_memory c' <? mem')).
  generalize dependent (negb (max_memory c =? UNLIMITED) && (max_memory c <? mem)).
  generalize dependent (negb (max_real_time c' =? UNLIMITED) && (max_real_time c' <? real')).
  generalize dependent (negb (max_real_time c =? UNLIMITED) && (max_real_time c <? real)).
  generalize dependent (negb (max_cpu_time c' =? UNLIMITED) && (max_cpu_time c' <? cpu')).
  generalize dependent (negb (max_cpu_time c =? UNLIMITED) && (max_cpu_time c <? cpu)).
  intros a a' A b b' B m m' M.
  unfold SUCCESS, CPU_TIME_LIMIT_EXCEEDED, REAL_TIME_LIMIT_EXCEEDED, MEMORY_LIMIT_EXCEEDED, RUNTIME_ERROR.
  destruct (sig =? SIGSEGV), (sig =? 0), (ec =? 0), a, a', b, b', m, m'; cbn;
    try (discriminate (A eq_refl)); try (discriminate (B eq_refl)); try (discriminate (M eq_refl)); lia.
Qed.

Lemma generous_verdict c c' e r ef r' ef' : more_generous c c' ->
  run c e = Returns (Val r) ef -> run c' e = Returns (Val r') ef' -> error r = 0 -> error r' = 0 -> may_become (verdict r) (verdict r').
Proof.
  intros G H H' E E'. apply run_without_error in H; [|exact E]. apply run_without_error in H'; [|exact E'].
  destruct H as (st & ru & W & J), H' as (st' & ru' & W' & J'). rewrite W in W'. injection W' as <- <-.
  apply judge_parts in J, J'. destruct J as (real & R & J), J' as (real' & R' & J'). rewrite R in R'. injection R' as <-.
  cbn zeta in *. destruct (_ =? SIGUSR1); [subst; left; reflexivity|].
  destruct J as (cpu & mem & A & B & ->), J' as (cpu' & mem' & A' & B' & ->). rewrite A in A'. rewrite B in B'.
  injection A' as <-. injection B' as <-. cbn [verdict]. apply decide_generous; [exact G|lia..].
Qed.

Lemma whole_results c c' e : limits_accepted c -> limits_accepted c' -> same_limits c c' ->
  match run c e, run c' e with
  | Returns r _, Returns r' _ => r = r'
  | EntersChild _, EntersChild _ => True
  | _, _ => False
  end.
Proof.
  intros A A' (L1 & L2 & L3). apply config_invalid_iff in A, A'. unfold run, error_exit. rewrite A, A'.
  destruct (negb (e_getuid e =? 0)); [reflexivity|]. destruct (e_fork e <? 0); [reflexivity|]. destruct (e_fork e =? 0); [exact Logic.I|].
  rewrite L2. destruct (_ && _); [reflexivity|]. destruct (e_wait4 e) as [[st ru]|]; [|reflexivity].
  unfold judge, decide. rewrite L1, L2, L3. reflexivity.
Qed.

Lemma shift_ms s k u : ((s + k) * 1000000 + u) / 1000 = (s * 1000000 + u) / 1000 + k * 1000.
Proof. replace ((s + k) * 1000000 + u) with (s * 1000000 + u + (k * 1000) * 1000) by lia. rewrite Z.div_add by lia. reflexivity. Qed.

Lemma alike k c e e' r ef r' ef' : answers_alike k e e' -> env_ok e -> env_ok e' ->
  run c e = Returns (Val r) ef -> run c e' = Returns (Val r') ef' -> error r = 0 -> error r' = 0 -> r = r'.
Proof.
  intros (S1 & S2 & E1 & E2 & st & ru & ru' & W & W' & U & M) O O' H H' E E'.
  apply run_without_error in H; [|exact E]. apply run_without_error in H'; [|exact E'].
  destruct H as (st1 & ru1 & X & J), H' as (st2 & ru2 & X' & J'). rewrite W in X. rewrite W' in X'. injection X as <- <-. injection X' as <- <-.
  destruct O as (O1 & O2 & _), O' as (O1' & O2' & _).
  assert (R : real_time_ms (e_start e) (e_end e) = real_time_ms (e_start e') (e_end e')).
  { rewrite !real_time_val by assumption. unfold us, usec. rewrite S1, S2, E1, E2, !shift_ms. do 2 f_equal. lia. }
  assert (X : judge c st ru (e_start e) (e_end e) = judge c st ru' (e_start e') (e_end e')).
  { unfold judge. rewrite R. unfold cpu_time_ms, memory_bytes. rewrite U, M. reflexivity. }
  congruence.
Qed.

Lemma cast_int_fits z : INT_MIN <= z <= INT_MAX -> cast_int z = z.
Proof. apply cast_int_id. Qed.

Lemma cpu_ms_nonneg ru : tv_ok (ru_utime ru) -> 0 <= cpu_ms ru.
Proof. intros [A B]. unfold cpu_ms, us, usec. apply Z.div_pos; lia. Qed.

Lemma less_use c c' e e' r ef r' ef' : more_generous c c' -> uses_no_more e' e -> env_ok e -> env_ok e' -> env_fits e -> env_fits e' ->
  run c e = Returns (Val r) ef -> run c' e' = Returns (Val r') ef' -> error r = 0 -> error r' = 0 -> may_become (verdict r) (verdict r').
Proof.
  intros G (L & st & ru & ru' & W & W' & U & M) O O' F F' H H' E E'.
  apply run_without_error in H; [|exact E]. apply run_without_error in H'; [|exact E'].
  destruct H as (st1 & ru1 & X & J), H' as (st2 & ru2 & X' & J'). rewrite W in X. rewrite W' in X'. injection X as <- <-. injection X' as <- <-.
  destruct O as (O1 & O2 & O3), O' as (O1' & O2' & O3'). destruct (O3 _ _ W) as (_ & T & RS), (O3' _ _ W') as (_ & T' & RS').
  destruct (F _ _ W) as [F1 F2], (F' _ _ W') as [F1' F2']. pose proof (cpu_ms_nonneg _ T). pose proof (cpu_ms_nonneg _ T').
  apply judge_parts in J, J'. destruct J as (real & R & J), J' as (real' & R' & J').
  rewrite real_time_val in R by assumption. rewrite real_time_val in R' by assumption. fold (elapsed_ms e) in R. fold (elapsed_ms e') in R'.
  rewrite cast_int_fits in R by assumption. rewrite cast_int_fits in R' by assumption. injection R as <-. injection R' as <-.
  cbn zeta in *. destruct (_ =? SIGUSR1); [subst; left; reflexivity|].
  destruct J as (cpu & mem & A & B & ->), J' as (cpu' & mem' & A' & B' & ->).
  rewrite cpu_time_val in A by assumption. rewrite cpu_time_val in A' by assumption. fold (cpu_ms ru) in A. fold (cpu_ms ru') in A'.
  rewrite cast_int_fits in A by (unfold INT_MIN; lia). rewrite cast_int_fits in A' by (unfold INT_MIN; lia).
  rewrite memory_val in B by assumption. rewrite memory_val in B' by assumption.
  injection A as <-. injection A' as <-. injection B as <-. injection B' as <-.
  cbn [verdict]. apply decide_generous; [exact G|lia..].
Qed.

(** A configuration with the given CPU time, real time and memory; another one for another program of another user; and what the
    system answers: the program exits with 0 after the given microseconds of CPU time, started and ended at the given microseconds
    of the seconds 100 and 100 + [s]. *)
Definition cmp_config (cpu real mem : Z) : config :=
  mkConfig cpu real mem 1048576 (-1) (-1) 0 (lit "/bin/ls") None None None [] [] (lit "/tmp/l") None 1000 1000.
Definition other_config (cpu real mem : Z) : config :=
  mkConfig cpu real mem 65536 10 4096 1 (lit "/bin/cat") (Some (lit "/tmp/i")) None None [] [] (lit "/tmp/m") (Some (lit "general")) 0 0.
Definition cmp_env (pid k cpu_us rss u0 s u1 : Z) : run_env :=
  mkRunEnv 0 (mkTv (100 + k) u0) pid 0 (Some (0, mkRu (mkTv 0 cpu_us) (mkTv pid 0) rss)) (mkTv (100 + k + s) u1).

Lemma cmp_env_ok pid k cpu_us rss u0 s u1 : 0 <= k <= 1000000 -> 0 <= s <= 1000000 -> 0 <= cpu_us < 1000000 -> 0 <= rss <= 1000000 ->
  0 <= u0 < 1000000 -> 0 <= u1 < 1000000 -> env_ok (cmp_env pid k cpu_us rss u0 s u1).
Proof.
  intros. unfold env_ok, cmp_env, tv_ok, instant_ok, rss_ok. cbn [e_start e_end e_wait4 tv_sec tv_usec].
  change (2 ^ 50) with 1125899906842624. change (2 ^ 53) with 9007199254740992.
  split; [lia|]. split; [lia|]. intros st ru X. injection X as <- <-. cbn [ru_utime ru_maxrss tv_sec tv_usec].
  split; [exists (Exited 0); cbn; split; [lia|reflexivity]|]. lia.
Qed.

Lemma cmp_env_fits pid k cpu_us rss u0 s u1 : 0 <= s <= 1000000 -> 0 <= cpu_us < 1000000 ->
  0 <= u0 < 1000000 -> 0 <= u1 < 1000000 -> env_fits (cmp_env pid k cpu_us rss u0 s u1).
Proof.
  intros. intros st ru X. injection X as <- <-. unfold times_fit, elapsed_ms, cpu_ms, us, usec, cmp_env, INT_MIN, INT_MAX.
  cbn [e_start e_end ru_utime tv_sec tv_usec]. Z.to_euclidean_division_equations. lia.
Qed.

Example ex_measured : exists r ef r' ef',
  run (cmp_config 500 2000 67108864) (cmp_env 7 0 700123 1024 0 1 0) = Returns (Val r) ef /\
  run (other_config 800 (-1) 1000) (cmp_env 7 0 700123 1024 0 1 0) = Returns (Val r') ef' /\
  error r = 0 /\ error r' = 0 /\ verdict r = 1 /\ verdict r' = 3 /\ cpu_time r = 700 /\ cpu_time r' = 700.
Proof. vm_compute. do 4 eexists. repeat split. Qed.

Example ex_generous : exists r ef r' ef',
  more_generous (cmp_config 500 2000 67108864) (cmp_config 1000 (-1) 67108864) /\
  run (cmp_config 500 2000 67108864) (cmp_env 7 0 700123 1024 0 1 0) = Returns (Val r) ef /\
  run (cmp_config 1000 (-1) 67108864) (cmp_env 7 0 700123 1024 0 1 0) = Returns (Val r') ef' /\
  error r = 0 /\ error r' = 0 /\ verdict r = 1 /\ verdict r' = 0.
Proof.
  do 4 eexists. split; [unfold more_generous, allows_more; cbn; lia|]. split; [vm_compute; reflexivity|].
  split; [vm_compute; reflexivity|]. vm_compute. repeat split.
Qed.

Example ex_only_limits :
  same_limits (cmp_config 500 2000 67108864) (other_config 500 2000 67108864) /\
  limits_accepted (cmp_config 500 2000 67108864) /\ limits_accepted (other_config 500 2000 67108864) /\
  exe_path (cmp_config 500 2000 67108864) <> exe_path (other_config 500 2000 67108864).
Proof.
  split; [repeat split|]. split; [unfold limits_accepted, limit_ok; cbn; lia|]. split; [unfold limits_accepted, limit_ok; cbn; lia|].
  cbn. discriminate.
Qed.

Example ex_alike : exists r ef r' ef',
  answers_alike 86400 (cmp_env 7 0 700123 1024 5 1 10) (cmp_env 9 86400 700123 1024 5 1 10) /\
  env_ok (cmp_env 7 0 700123 1024 5 1 10) /\ env_ok (cmp_env 9 86400 700123 1024 5 1 10) /\
  run (cmp_config 500 2000 67108864) (cmp_env 7 0 700123 1024 5 1 10) = Returns (Val r) ef /\
  run (cmp_config 500 2000 67108864) (cmp_env 9 86400 700123 1024 5 1 10) = Returns (Val r') ef' /\
  error r = 0 /\ error r' = 0.
Proof.
  do 4 eexists. split.
  { unfold answers_alike. cbn. split; [reflexivity|]. split; [reflexivity|]. split; [reflexivity|]. split; [reflexivity|].
    do 3 eexists. split; [reflexivity|]. split; [reflexivity|]. split; reflexivity. }
  split; [apply cmp_env_ok; lia|]. split; [apply cmp_env_ok; lia|].
  split; [vm_compute; reflexivity|]. split; [vm_compute; reflexivity|]. split; reflexivity.
Qed.

Example ex_less : exists r ef r' ef',
  uses_no_more (cmp_env 9 50 400000 1000 5 1 10) (cmp_env 7 0 700123 1024 5 3 10) /\
  env_ok (cmp_env 9 50 400000 1000 5 1 10) /\ env_ok (cmp_env 7 0 700123 1024 5 3 10) /\
  env_fits (cmp_env 9 50 400000 1000 5 1 10) /\ env_fits (cmp_env 7 0 700123 1024 5 3 10) /\
  run (cmp_config 800 2000 67108864) (cmp_env 7 0 700123 1024 5 3 10) = Returns (Val r) ef /\
  run (cmp_config 800 2000 67108864) (cmp_env 9 50 400000 1000 5 1 10) = Returns (Val r') ef' /\
  error r = 0 /\ error r' = 0 /\ verdict r = 2 /\ verdict r' = 0.
Proof.
  do 4 eexists. split.
  { unfold uses_no_more. split; [vm_compute; discriminate|]. do 3 eexists. split; [reflexivity|]. split; [reflexivity|].
    split; vm_compute; discriminate. }
  split; [apply cmp_env_ok; lia|]. split; [apply cmp_env_ok; lia|]. split; [apply cmp_env_fits; lia|]. split; [apply cmp_env_fits; lia|].
  split; [vm_compute; reflexivity|]. split; [vm_compute; reflexivity|]. vm_compute. repeat split.
Qed.

Lemma other_limit : exists c c' e r ef r' ef', more_generous c c' /\
  run c e = Returns (Val r) ef /\ run c' e = Returns (Val r') ef' /\ error r = 0 /\ error r' = 0 /\ verdict r = 1 /\ verdict r' = 2.
Proof.
  exists (cmp_config 500 2000 67108864), (cmp_config 1000 2000 67108864), (cmp_env 7 0 700123 1024 0 3 0).
  do 4 eexists. split; [unfold more_generous, allows_more; cbn; lia|]. split; [vm_compute; reflexivity|].
  split; [vm_compute; reflexivity|]. vm_compute. repeat split.
Qed.

Lemma fewer_microseconds : exists c e e' r ef r' ef', limits_accepted c /\ env_ok e /\ env_ok e' /\ env_fits e /\ env_fits e' /\
  e_wait4 e = e_wait4 e' /\ elapsed_us e < elapsed_us e' /\
  run c e = Returns (Val r) ef /\ run c e' = Returns (Val r') ef' /\ error r = 0 /\ error r' = 0 /\ verdict r = 2 /\ verdict r' = 0.
Proof.
  exists (cmp_config 500 2000 67108864), (cmp_env 7 0 1000 1024 999 2 1001), (cmp_env 7 0 1000 1024 0 2 900).
  do 4 eexists. split; [unfold limits_accepted, limit_ok; cbn; lia|].
  split; [apply cmp_env_ok; lia|]. split; [apply cmp_env_ok; lia|]. split; [apply cmp_env_fits; lia|]. split; [apply cmp_env_fits; lia|].
  split; [reflexivity|]. split; [vm_compute; reflexivity|].
  split; [vm_compute; reflexivity|]. split; [vm_compute; reflexivity|]. vm_compute. repeat split.
Qed.
