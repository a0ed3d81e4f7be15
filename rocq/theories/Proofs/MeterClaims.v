From Coq Require Import ZArith Bool List String Lia.
From Verif.Base Require Import CInt CStr.
From Verif.Model Require Import Config Runner Seccomp Child Program Meter.
From Verif.Spec Require Import Verdict RunSpec Syscalls SandboxSpec Samples ChildSamples ContainSpec ContainSamples MeterSpec.
From Verif.Proofs Require Import SeccompProofs ChildClaims SampleFacts ProgramProofs RunnerProofs RunnerClaims ContainSampleFacts MeterProofs.
From Verif.Props Require Import P02_Child.
Import ListNotations.
Open Scope list_scope.
Open Scope Z_scope.

(** ** What is reported *)
Lemma ru_values c e o ru r ef : RunSpec.judged c e o ru -> env_fits e -> run c e = Returns (Val r) ef ->
  (cpu_time r = us (ru_utime ru) / 1000 \/ cpu_time r = 0) /\ (memory r = 1024 * ru_maxrss ru \/ memory r = 0).
Proof.
  intros J F E. destruct (Z.eq_dec (verdict r) SYSTEM_ERROR) as [S|S].
  - assert (Ok : env_ok e) by apply J.
    destruct (proj2 (c05_system_error c e r ef Ok E) S) as (_ & _ & _ & C & M & _). now split; right.
  - destruct (c01_measured c e o ru J F) as (r' & ef' & E' & C & _ & M).
    + intros core ->. apply S. assert (Ok : env_ok e) by apply J. apply (proj1 (c05_system_error c e r ef Ok E)). now exists core, ru.
    + rewrite E' in E. injection E as <- <-. split; left; assumption.
Qed.

Lemma reported_within tick xcpu own w m evs w' m' p c e o ru r ef :
  0 <= tick -> all_begun own w m -> mruns tick xcpu w m evs w' m' -> runs_for w p c ->
  RunSpec.judged c e o ru -> env_fits e -> waited_for w' m' p o ru -> run c e = Returns (Val r) ef ->
  (max_cpu_time c <> -1 -> cpu_time r <= max_cpu_time c + 1000 + tick / 1000) /\
  (max_memory c <> -1 -> memory_limit_check_only c = 0 -> 0 <= own p -> memory r <= Z.max (own p) (2 * max_memory c)).
Proof.
  intros T B R F J Ft (x & Hx & Ha & U & S & M) E. destruct (ru_values c e o ru r ef J Ft E) as [V1 V2]. split.
  - intros N. pose proof (cpu_bound tick xcpu own w m evs w' m' p c _ T B R F N Hx) as K. cbn beta iota in K.
    destruct (runs_kept tick xcpu own w m evs w' m' T B R) as [_ Mi]. destruct F as (ptr & P & HP & _).
    destruct (Mi p P _ HP Hx) as (_ & Sy & _). unfold u_time in K. rewrite U in V1.
    assert (0 <= max_cpu_time c).
    { destruct J as (_ & (A & _) & _). destruct A; [contradiction|lia]. }
    assert (Q : u_user (m' p) / 1000 <= max_cpu_time c + 1000 + tick / 1000).
    { unfold seconds in K. pose proof (Z.div_mod (max_cpu_time c) 1000). pose proof (Z.mod_pos_bound (max_cpu_time c) 1000).
      transitivity ((1000 * (1000 * (max_cpu_time c / 1000 + 1)) + tick) / 1000); [apply Z.div_le_mono; lia|].
      rewrite Z.mul_comm, Z.div_add_l by lia. lia. }
    pose proof (Z.div_pos tick 1000 T). destruct V1 as [-> | ->]; lia.
  - intros N C0 Ow. destruct (mem_bound tick xcpu own w m evs w' m' p c T B R F N C0) as [_ K].
    rewrite M in V2. pose proof (Z.mul_div_le (u_peak (m' p)) 1024). destruct V2 as [-> | ->]; lia.
Qed.

(** ** The kernel's cut is a CPU_TIME_LIMIT_EXCEEDED *)
Lemma cut_verdict tick xcpu own w m evs w' m' p c e o ru r ef :
  all_begun own w m -> mruns tick xcpu w m evs w' m' -> runs_for w p c ->
  max_cpu_time c <> -1 -> cpu_limits_left evs -> (forall sig, In (MHit p sig) evs -> sig <> 9 /\ sig <> 24) ->
  RunSpec.judged c e o ru -> env_fits e -> waited_for w' m' p o ru -> run c e = Returns (Val r) ef ->
  signal r = 9 \/ signal r = 24 ->
  u_sys (m' p) <= 1000000 * seconds (max_cpu_time c) - 1000 * (max_cpu_time c + 1) ->
  verdict r = CPU_TIME_LIMIT_EXCEEDED.
Proof.
  intros B R F N Lf Hn J Ft (x & Hx & Ha & U & S & M) E Sg Sy.
  destruct (run_judged_result _ _ _ _ J) as (r' & ef' & E' & He & Hre & Hsig & _ & Hm & HT).
  rewrite E' in E. injection E as <- <-.
  assert (X : w' p = Some (inr (Signaled 9)) \/ w' p = Some (inr (Signaled 24))).
  { rewrite Hx. destruct x as [n|sig]; cbn in Ha.
    - subst o. cbn in Hsig. exfalso. lia.
    - destruct Ha as (core & ->). cbn in Hsig. destruct Sg as [Q|Q]; rewrite Hsig in Q; subst sig; tauto. }
  destruct (not_early tick xcpu own w m evs w' m' p c B R F N Lf Hn X) as [_ L].
  assert (O : exists sig core, o = Killed sig core /\ (sig = 9 \/ sig = 24)).
  { rewrite Hx in X. destruct X as [[= ->]|[= ->]]; destruct Ha as (core & ->); eauto 6. }
  destruct O as (sig & core & -> & Os).
  destruct (c01_measured c e _ ru J Ft) as (r2 & ef2 & E2 & C2 & _); [intros core'; destruct Os; subst; discriminate|].
  rewrite E' in E2. injection E2 as <- <-.
  assert (Ex : exceeded (max_cpu_time c) (cpu_time r')).
  { split; [exact N|]. rewrite C2. unfold cpu_ms. rewrite U. unfold u_time in L.
    assert (max_cpu_time c + 1 <= u_user (m' p) / 1000); [|lia]. apply Z.div_le_lower_bound; lia. }
  unfold verdict_table in HT. unfold CPU_TIME_LIMIT_EXCEEDED. destruct Os; subst sig; cbn in HT; tauto.
Qed.

(** ** All that is allowed can be had *)
Lemma can_spend tick xcpu p P L : 1 <= tick -> p_rlim P RCpu = (L, L) ->
  forall n w m user sys, n = Z.to_nat (user + sys) -> w p = Some (inl P) -> 0 <= user -> 0 <= sys ->
  (L <> RLIM_INFINITY -> u_time (m p) + user + sys < 1000000 * L) ->
  exists evs w' m', mruns tick xcpu w m evs w' m' /\ (forall e, In e evs -> exists a b, e = MRun p a b) /\
    (forall q, w' q = w q) /\ (forall q, q <> p -> m' q = m q) /\ m' p = spend (m p) user sys.
Proof.
  intros T E. induction n as [|n IH]; intros w m user sys En H U S B.
  - assert (user = 0 /\ sys = 0) as [-> ->] by lia. exists [], w, m. split; [constructor|]. split; [intros e []|].
    split; [reflexivity|]. split; [reflexivity|]. unfold spend. destruct (m p); cbn. now rewrite !Z.add_0_r.
  - assert (exists a b, 0 <= a /\ 0 <= b /\ a + b = 1 /\ a <= user /\ b <= sys) as (a & b & A1 & A2 & A3 & A4 & A5).
    { destruct (Z_lt_le_dec 0 user); [exists 1, 0; lia|exists 0, 1; lia]. }
    assert (K : reached L (u_time (m p) + a + b) = false).
    { apply reached_false. destruct (Z.eq_dec L RLIM_INFINITY); [left; assumption|right]. specialize (B n0). lia. }
    assert (St : mstep tick xcpu w m (MRun p a b) (put w p (inl P)) (set_use m p (spend (m p) a b))).
    { assert (X : at_tick xcpu p P (u_time (m p) + a + b) = inl P) by (unfold at_tick; rewrite E, K; reflexivity).
      rewrite <- X. apply m_run; [exact H|lia|lia|lia]. }
    destruct (IH (put w p (inl P)) (set_use m p (spend (m p) a b)) (user - a) (sys - b)) as (evs & w' & m' & R & O & W & M & Mp).
    + lia.
    + unfold put. now rewrite Nat.eqb_refl.
    + lia.
    + lia.
    + intros Fi. specialize (B Fi). unfold set_use. rewrite Nat.eqb_refl. unfold u_time in *. cbn [spend u_user u_sys]. lia.
    + exists (MRun p a b :: evs), w', m'. split; [econstructor; [exact St|exact R]|].
      split; [intros e [<- | X]; [eauto|exact (O e X)]|].
      split. { intros q. rewrite W. unfold put. destruct (Nat.eqb_spec q p) as [->|]; congruence. }
      split. { intros q Q. rewrite (M q Q). unfold set_use. destruct (Nat.eqb_spec q p); congruence. }
      rewrite Mp. unfold set_use. rewrite Nat.eqb_refl. unfold spend. cbn. f_equal; lia.
Qed.

Lemma cut_at tick xcpu p P L w m user sys : p_rlim P RCpu = (L, L) -> L <> RLIM_INFINITY -> w p = Some (inl P) ->
  0 <= user -> 0 <= sys -> user + sys <= tick -> 1000000 * L <= u_time (m p) + user + sys ->
  mstep tick xcpu w m (MRun p user sys) (put w p (inr (Signaled SIGKILL))) (set_use m p (spend (m p) user sys)).
Proof.
  intros E Fi H U S T K. assert (X : at_tick xcpu p P (u_time (m p) + user + sys) = inr (Signaled SIGKILL)).
  { unfold at_tick. rewrite E. assert (reached L (u_time (m p) + user + sys) = true) as -> by (apply reached_true; split; lia || assumption). reflexivity. }
  rewrite <- X. apply m_run; assumption.
Qed.

(** All the time a configuration allows, in any proportion. *)
Lemma time_available tick xcpu own w m p c user sys : 1 <= tick -> all_begun own w m -> runs_for w p c ->
  max_cpu_time c <> -1 -> u_user (m p) <= user -> u_sys (m p) <= sys -> user + sys < 1000000 * seconds (max_cpu_time c) ->
  exists evs w' m' P, mruns tick xcpu w m evs w' m' /\ w' p = Some (inl P) /\ u_user (m' p) = user /\ u_sys (m' p) = sys.
Proof.
  intros T B (ptr & P & H & J) N U S L. destruct (judged_limits c ptr P RCpu _ J (wanted_cpu c N)) as [E F].
  destruct (can_spend tick xcpu p P _ T E _ w m (user - u_user (m p)) (sys - u_sys (m p)) eq_refl H) as (evs & w' & m' & R & _ & W & _ & M).
  - lia.
  - lia.
  - intros _. unfold u_time. lia.
  - exists evs, w', m', P. split; [exact R|]. split; [rewrite W; exact H|]. rewrite M. cbn. lia.
Qed.

(** All the memory. *)
Lemma mmap_allowed P : c_cpp_program P \/ c_cpp_file_io_program P ->
  filters_action (p_filters P) (call "mmap" []) = ActAllow.
Proof.
  intros [X|X]; destruct X as (c & ptr & J & A & Nm); destruct J as (env & log & k0 & path & a & v & k & R & U & L & E & _ & ->).
  - apply (c24_c_cpp _ _ _ _ _ _ _ _ R E Nm). split; [reflexivity|]. left. cbn. tauto.
  - apply (c24_c_cpp_file_io _ _ _ _ _ _ _ _ R E Nm). split; [reflexivity|]. left. cbn. tauto.
Qed.

Lemma memory_available tick xcpu own w m p P space : all_begun own w m -> w p = Some (inl P) ->
  0 <= space -> (fst (p_rlim P RAs) = 18446744073709551615 \/ space <= fst (p_rlim P RAs)) ->
  exists w' m', mruns tick xcpu w m [MCall p (call "mmap" [])] w' m' /\ w' p = Some (inl P) /\
    u_space (m' p) = space /\ u_resident (m' p) = space /\ space <= u_peak (m' p).
Proof.
  intros [A B] H S W. destruct (A p _ H) as (P' & Y & C). injection Y as <-.
  exists w, (set_use m p (occupy (m p) space space)). split.
  - econstructor; [|constructor]. apply (m_call tick xcpu w m p P (call "mmap" []) w space space).
    + exact H.
    + apply mmap_allowed, C.
    + apply (step_allowed w p P); [exact H|apply mmap_allowed, C|constructor].
    + right. left. split; [cbn; tauto|]. right. exact W.
    + lia.
  - split; [exact H|]. unfold set_use. rewrite Nat.eqb_refl. cbn. lia.
Qed.

(** ** A sample: two programs of 1000 ms and 128 MiB, started by a judger of 1 MiB *)
Definition fresh_use : use := mkUse 0 2000 4194304 262144 1048576.
Definition fresh_meter : meter := fun _ => fresh_use.

Lemma sub_limits nm u : 0 <= u < 4294967295 ->
  In nm [None; Some "c_cpp"; Some "c_cpp_file_io"; Some "general"; Some "golang"; Some "node"]%string ->
  p_rlim (sub_program nm u) RCpu = (2, 2) /\ p_rlim (sub_program nm u) RAs = (268435456, 268435456).
Proof.
  intros U I. pose proof (sub_judged nm u U I) as J. split.
  - apply (judged_limits _ _ _ RCpu 2 J). reflexivity.
  - apply (judged_limits _ _ _ RAs 268435456 J). reflexivity.
Qed.

Lemma two_begun : all_begun (fun _ => 1048576) (two (Some "c_cpp"%string) 1001 1002) fresh_meter.
Proof.
  split; [apply two_started; lia|]. intros p P H.
  assert (exists u, 0 <= u < 4294967295 /\ P = sub_program (Some "c_cpp"%string) u) as (u & U & ->).
  { assert (Inj : forall a b : proc, @Some (proc + ending) (inl a) = Some (inl b) -> b = a) by (intros a b Q; congruence).
    unfold two in H. do 7 (destruct p as [|p]; [discriminate|]).
    destruct p as [|[|p]]; [exists 1001|exists 1002|discriminate]; (split; [lia|exact (Inj _ _ H)]). }
  destruct (sub_limits (Some "c_cpp"%string) u U) as [E1 E2]; [cbn; tauto|]. unfold begun. rewrite E1, E2. cbn. lia.
Qed.

Lemma two_runs_for : runs_for (two (Some "c_cpp"%string) 1001 1002) 7 (sub_config (Some "c_cpp"%string) 1001).
Proof. exists sub_ptr, (sub_program (Some "c_cpp"%string) 1001). split; [reflexivity|]. apply sub_judged; [lia|cbn; tauto]. Qed.

Definition end_env (status : Z) (ru : rusage) : run_env := sample_env status ru.

Lemma sub_run_judged o ru : wf_outcome o -> tv_ok (ru_utime ru) -> rss_ok ru ->
  RunSpec.judged (sub_config (Some "c_cpp"%string) 1001) (end_env (wait_status o) ru) o ru.
Proof.
  intros W T R. split; [reflexivity|]. split; [repeat split; cbn; unfold limit_ok; lia|]. split; [cbn; lia|].
  split; [right; reflexivity|]. split; [reflexivity|]. split; [exact W|].
  split; [unfold tv_ok, instant_ok; cbn; lia|]. split; [unfold tv_ok, instant_ok; cbn; lia|].
  intros st ru' [= <- <-]. split; [exists o; now split|now split].
Qed.

(** A program that only makes system calls is cut at 2 s and reported as a runtime error with no time used. *)
Lemma system_time_unseen tick xcpu : 1 <= tick ->
  exists evs w' m' o ru r ef,
    mruns tick xcpu (two (Some "c_cpp"%string) 1001 1002) fresh_meter evs w' m' /\ cpu_limits_left evs /\
    (forall sig, ~ In (MHit 7 sig) evs) /\
    2000000 <= u_time (m' 7%nat) /\ u_user (m' 7%nat) = 0 /\ waited_for w' m' 7 o ru /\
    RunSpec.judged (sub_config (Some "c_cpp"%string) 1001) (end_env (wait_status o) ru) o ru /\
    run (sub_config (Some "c_cpp"%string) 1001) (end_env (wait_status o) ru) = Returns (Val r) ef /\
    cpu_time r = 0 /\ verdict r = RUNTIME_ERROR.
Proof.
  intros T. set (w := two (Some "c_cpp"%string) 1001 1002). set (P := sub_program (Some "c_cpp"%string) 1001).
  destruct (sub_limits (Some "c_cpp"%string) 1001 ltac:(lia)) as [E1 _]; [cbn; tauto|]. fold P in E1.
  destruct (can_spend tick xcpu 7 P 2 T E1 _ w fresh_meter 0 1997999 eq_refl eq_refl) as (evs & w' & m' & R & O & W & _ & M); [lia|lia| |].
  { intros _. unfold u_time, fresh_meter. cbn. lia. }
  assert (H' : w' 7%nat = Some (inl P)) by (rewrite W; reflexivity).
  pose proof (cut_at tick xcpu 7 P 2 w' m' 0 1 E1 ltac:(discriminate) H' ltac:(lia) ltac:(lia) ltac:(lia)) as S.
  exists (evs ++ [MRun 7 0 1]), (put w' 7 (inr (Signaled SIGKILL))), (set_use m' 7 (spend (m' 7%nat) 0 1)),
    (Killed 9 false), (mkRu (mkTv 0 0) (mkTv 2 0) 1024).
  do 2 eexists. split.
  { assert (App : forall w m ev w1 m1 e w2 m2, mruns tick xcpu w m ev w1 m1 -> mstep tick xcpu w1 m1 e w2 m2 -> mruns tick xcpu w m (ev ++ [e]) w2 m2).
    { intros a b ev a1 b1 e a2 b2 R1 S1. induction R1 as [|x y e0 x1 y1 l x2 y2 S0 R0 IH]; [econstructor; [exact S1|constructor]|].
      cbn. econstructor; [exact S0|exact (IH S1)]. }
    apply (App _ _ _ _ _ _ _ _ R). apply S. rewrite M. unfold u_time. cbn. lia. }
  split. { intros q sc X. apply in_app_or in X. destruct X as [X|[X|[]]]; [destruct (O _ X) as (a & b & Y)|]; discriminate. }
  split. { intros sig X. apply in_app_or in X. destruct X as [X|[X|[]]]; [destruct (O _ X) as (a & b & Y)|]; discriminate. }
  unfold set_use. cbn [Nat.eqb]. rewrite M. unfold u_time. cbn [spend u_user u_sys fresh_meter fresh_use].
  split; [lia|]. split; [reflexivity|]. split.
  { exists (Signaled SIGKILL). split; [reflexivity|]. split; [now exists false|]. cbn [Nat.eqb]. cbn. repeat split. }
  split. { apply sub_run_judged; [cbn; lia|unfold tv_ok, instant_ok; cbn; lia|unfold rss_ok; cbn; lia]. }
  split; [vm_compute; reflexivity|]. split; reflexivity.
Qed.

(** A program that asks for more than it may have and goes on without is successful. *)
Lemma refused_memory_unseen tick xcpu :
  exists evs w' m' ru r ef,
    mruns tick xcpu (two (Some "c_cpp"%string) 1001 1002) fresh_meter evs w' m' /\
    In (MCall 7 (call "mmap" [0; 1073741824; 3; 34; 18446744073709551615; 0])) evs /\
    waited_for w' m' 7 (Verdict.Exited 0) ru /\
    RunSpec.judged (sub_config (Some "c_cpp"%string) 1001) (end_env 0 ru) (Verdict.Exited 0) ru /\
    run (sub_config (Some "c_cpp"%string) 1001) (end_env 0 ru) = Returns (Val r) ef /\ verdict r = SUCCESS.
Proof.
  set (w := two (Some "c_cpp"%string) 1001 1002).
  assert (A1 : filters_action (p_filters (sub_program (Some "c_cpp"%string) 1001)) (call "mmap" [0; 1073741824; 3; 34; 18446744073709551615; 0]) = ActAllow) by (vm_compute; reflexivity).
  assert (A2 : filters_action (p_filters (sub_program (Some "c_cpp"%string) 1001)) (call "exit_group" [0]) = ActAllow) by (vm_compute; reflexivity).
  exists [MCall 7 (call "mmap" [0; 1073741824; 3; 34; 18446744073709551615; 0]); MCall 7 (call "exit_group" [0])].
  do 2 eexists. exists (mkRu (mkTv 0 0) (mkTv 0 2000) 1024). do 2 eexists. split.
  { eapply mruns_cons.
    - apply (m_call tick xcpu w fresh_meter 7 (sub_program (Some "c_cpp"%string) 1001) _ w 4194304 262144); [reflexivity|exact A1| | |lia].
      + apply (step_allowed w 7 (sub_program (Some "c_cpp"%string) 1001)); [reflexivity|exact A1|constructor].
      + left. reflexivity.
    - eapply mruns_cons; [|constructor].
      apply (m_call tick xcpu w _ 7 (sub_program (Some "c_cpp"%string) 1001) _ (put w 7 (inr (Program.Exited (0 mod 256)))) 4194304 262144); [reflexivity|exact A2| | |lia].
      + apply (step_allowed w 7 (sub_program (Some "c_cpp"%string) 1001)); [reflexivity|exact A2|]. apply (ex_exit w 7 (sub_program (Some "c_cpp"%string) 1001) (call "exit_group" [0])). reflexivity.
      + left. reflexivity. }
  split; [now left|]. split.
  { exists (Program.Exited 0). split; [reflexivity|]. split; [reflexivity|]. cbn. repeat split. }
  split. { apply (sub_run_judged (Verdict.Exited 0)); [cbn; lia|unfold tv_ok, instant_ok; cbn; lia|unfold rss_ok; cbn; lia]. }
  split; [vm_compute; reflexivity|reflexivity].
Qed.

Lemma memory_available_for tick xcpu own w m p c space : all_begun own w m -> runs_for w p c ->
  max_memory c <> -1 -> memory_limit_check_only c = 0 -> 0 <= space <= 2 * max_memory c ->
  exists evs w' m' P, mruns tick xcpu w m evs w' m' /\ w' p = Some (inl P) /\
    u_space (m' p) = space /\ u_resident (m' p) = space.
Proof.
  intros B (ptr & P & H & J) N C0 S. destruct (judged_limits c ptr P RAs _ J (wanted_as c N C0)) as [E F].
  destruct (memory_available tick xcpu own w m p P space B H) as (w' & m' & R & Q & U & V & _).
  - lia.
  - right. rewrite E. cbn [fst]. lia.
  - now exists [MCall p (call "mmap" [])], w', m', P.
Qed.

Lemma checked_only_unbounded tick xcpu own w m p P space : all_begun own w m -> w p = Some (inl P) ->
  fst (p_rlim P RAs) = 18446744073709551615 -> 0 <= space ->
  exists evs w' m', mruns tick xcpu w m evs w' m' /\ w' p = Some (inl P) /\ space <= u_peak (m' p).
Proof.
  intros B H F S. destruct (memory_available tick xcpu own w m p P space B H S (or_introl F)) as (w' & m' & R & Q & _ & _ & V).
  now exists [MCall p (call "mmap" [])], w', m'.
Qed.

(** ** One whose memory is only checked afterwards *)
Definition check_config : config :=
  mkConfig 1000 2000 134217728 33554432 10 10000 1
           (lit "/bin/prog") (Some (lit "1.in")) (Some (lit "1.out")) (Some (lit "1.err"))
           [Ptr (lit "/bin/prog"); Null] [Null] (lit "judger.log") (Some (lit "c_cpp")) 1001 1001.
Definition check_program : proc :=
  match child_process (sample_child_env None) sample_log check_config sample_k0 with
  | CExec _ _ _ k => program_of k
  | _ => program_of sample_k0
  end.
Definition one : world := fun p => match p with 7%nat => Some (inl check_program) | _ => None end.

Lemma check_judged : ContainSpec.judged check_config sub_ptr check_program.
Proof.
  assert (ready check_config sample_k0) as R.
  { split; [repeat split; cbn; unfold U32_MOD; try lia; intros; try discriminate|].
    split; [repeat split; cbn; unfold limit_ok; lia|]. split; [cbn; lia|apply sample_ready]. }
  destruct (c13_program_starts (sample_child_env None) sample_log check_config sample_k0) as (p & a & v & k & E).
  - exact R.
  - apply sample_all_succeed.
  - cbn. auto 6.
  - reflexivity.
  - exists (sample_child_env None), sample_log, sample_k0, p, a, v, k.
    split; [exact R|]. split; [reflexivity|]. split; [intros r; cbn; lia|]. split; [exact E|]. split; [reflexivity|].
    unfold check_program. rewrite E. reflexivity.
Qed.

Lemma one_begun : all_begun (fun _ => 1048576) one fresh_meter /\ runs_for one 7 check_config /\
  fst (p_rlim check_program RAs) = 18446744073709551615.
Proof.
  assert (L : fst (p_rlim check_program RAs) = 18446744073709551615) by (vm_compute; reflexivity).
  assert (C : p_rlim check_program RCpu = (2, 2)).
  { apply (judged_limits _ _ _ RCpu 2 check_judged). reflexivity. }
  assert (Inj : forall a b : proc, @Some (proc + ending) (inl a) = Some (inl b) -> b = a) by (intros a b Q; congruence).
  split; [split|split; [|exact L]].
  - intros p s H. unfold one in H. do 7 (destruct p as [|p]; [discriminate|]). destruct p as [|p]; [|discriminate].
    exists check_program. split; [congruence|]. left. exists check_config, sub_ptr. split; [exact check_judged|].
    split; [repeat split; unfold keep_id; cbn; lia|reflexivity].
  - intros p P H. unfold one in H. do 7 (destruct p as [|p]; [discriminate|]). destruct p as [|p]; [|discriminate].
    rewrite (Inj _ _ H). unfold begun. rewrite C, L. cbn. lia.
  - exists sub_ptr, check_program. split; [reflexivity|exact check_judged].
Qed.

(** ** One that spends its time in user mode *)
Lemma user_time_seen : exists evs w' m' o ru r ef,
  mruns 10000 (fun _ => true) (two (Some "c_cpp"%string) 1001 1002) fresh_meter evs w' m' /\ cpu_limits_left evs /\
  (forall sig, In (MHit 7 sig) evs -> sig <> 9 /\ sig <> 24) /\
  waited_for w' m' 7 o ru /\ u_sys (m' 7%nat) = 2000 /\
  RunSpec.judged (sub_config (Some "c_cpp"%string) 1001) (end_env (wait_status o) ru) o ru /\
  env_fits (end_env (wait_status o) ru) /\
  run (sub_config (Some "c_cpp"%string) 1001) (end_env (wait_status o) ru) = Returns (Val r) ef /\ signal r = 9.
Proof.
  set (w := two (Some "c_cpp"%string) 1001 1002). set (P := sub_program (Some "c_cpp"%string) 1001).
  destruct (sub_limits (Some "c_cpp"%string) 1001 ltac:(lia)) as [E1 _]; [cbn; tauto|]. fold P in E1.
  destruct (can_spend 10000 (fun _ => true) 7 P 2 ltac:(lia) E1 _ w fresh_meter 1990000 0 eq_refl eq_refl) as (evs & w' & m' & R & O & W & _ & M); [lia|lia| |].
  { intros _. unfold u_time, fresh_meter. cbn. lia. }
  assert (H' : w' 7%nat = Some (inl P)) by (rewrite W; reflexivity).
  pose proof (cut_at 10000 (fun _ => true) 7 P 2 w' m' 10000 0 E1 ltac:(discriminate) H' ltac:(lia) ltac:(lia) ltac:(lia)) as S.
  exists (evs ++ [MRun 7 10000 0]), (put w' 7 (inr (Signaled SIGKILL))), (set_use m' 7 (spend (m' 7%nat) 10000 0)),
    (Killed 9 false), (mkRu (mkTv 2 0) (mkTv 0 2000) 1024).
  do 2 eexists. split.
  { assert (App : forall t x w m ev w1 m1 e w2 m2, mruns t x w m ev w1 m1 -> mstep t x w1 m1 e w2 m2 -> mruns t x w m (ev ++ [e]) w2 m2).
    { intros t k a b ev a1 b1 e a2 b2 R1 S1. induction R1 as [|x y e0 x1 y1 l x2 y2 S0 R0 IH]; [econstructor; [exact S1|constructor]|].
      cbn. econstructor; [exact S0|exact (IH S1)]. }
    apply (App _ _ _ _ _ _ _ _ _ _ R). apply S. rewrite M. unfold u_time. cbn. lia. }
  split. { intros q sc X. apply in_app_or in X. destruct X as [X|[X|[]]]; [destruct (O _ X) as (a & b & Y)|]; discriminate. }
  split. { intros sig X. apply in_app_or in X. destruct X as [X|[X|[]]]; [destruct (O _ X) as (a & b & Y)|]; discriminate. }
  unfold set_use. cbn [Nat.eqb]. rewrite M. cbn [spend u_user u_sys fresh_meter fresh_use].
  split.
  { exists (Signaled SIGKILL). split; [reflexivity|]. split; [now exists false|]. cbn [Nat.eqb]. cbn. repeat split. }
  split; [reflexivity|].
  split. { apply sub_run_judged; [cbn; lia|unfold tv_ok, instant_ok; cbn; lia|unfold rss_ok; cbn; lia]. }
  split. { intros st ru [= <- <-]. vm_compute. repeat split; discriminate. }
  split; [vm_compute; reflexivity|reflexivity].
Qed.
