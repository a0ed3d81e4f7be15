(** The statements about child_process, from [child_final]. *)
From Coq Require Import ZArith Bool List String Lia Arith.
From Verif.Base Require Import CInt CStr.
From Verif.Model Require Import Config Runner Seccomp Child.
From Verif.Spec Require Import Verdict RunSpec Syscalls SandboxSpec.
From Verif.Proofs Require Import SeccompProofs ChildProofs ChildExec RunnerProofs RunnerClaims.
Import ListNotations.
Open Scope list_scope.
Open Scope Z_scope.

Lemma child_final' env log c k0 : ready c k0 -> final env c k0 (child_process env log c k0).
Proof. intros (T & A & B & F). apply child_final; assumption. Qed.

Lemma exec_inv env log c k0 p a v k :
  ready c k0 -> child_process env log c k0 = CExec p a v k -> exec_post env c k0 p a v k.
Proof. intros R E. pose proof (child_final' env log c k0 R) as H. rewrite E in H. exact H. Qed.

Lemma c13_complete_sandbox env log c k0 p a v k :
  ready c k0 -> child_process env log c k0 = CExec p a v k ->
  p = exe_path c /\ a = args c /\ v = Config.env c /\
  flat_map performed (k_trace k) = sandbox_script c.
Proof.
  intros R E. destruct (exec_inv _ _ _ _ _ _ _ _ R E) as ((-> & -> & ->) & S & _). repeat split; assumption.
Qed.

(** *** Everything succeeds: the program starts. *)
Section AllOk.
Variable env : child_env.
Hypothesis okc : forall n, ce_ok env n = true.

Definition calm (k : kstate) : Prop := k_filter k = [] /\ euid (k_cred k) = 0.

Definition execs {A} (m : M A) : Prop :=
  forall k, calm k -> exists p a v k', m k = Stop (CExec p a v k').

Lemma call_ok sc k : k_filter k = [] -> call env sc k = Go true (bump k).
Proof. intros F. unfold call. fold (bump k). rewrite F, okc. reflexivity. Qed.

Lemma setrlimit_ok r v k : calm k -> exists k', setrlimit env r v k = Go true k' /\ calm k'.
Proof.
  intros [F U]. unfold setrlimit, bind. rewrite call_ok by assumption. cbn. eexists. split; [reflexivity|].
  split; assumption.
Qed.

Lemma limit_block_execs {A} log active r v (K : M A) :
  (active = true -> exists z, v = Val z) -> execs K -> execs (limit_block env log active r v K).
Proof.
  intros Hv HK k Hc. unfold limit_block. destruct active; [|apply HK; assumption].
  destruct (Hv eq_refl) as [z ->]. unfold bind.
  destruct (setrlimit_ok r z k Hc) as (k' & -> & Hc'). apply HK; assumption.
Qed.

Lemma fopen_ok p m k : calm k ->
  exists s k' o, fopen env p m k = Go (Some s) k' /\ calm k' /\ fd_get (k_fds k') (s_fd s) = Some o.
Proof.
  intros [F U]. unfold fopen, bind. rewrite call_ok by assumption. cbn.
  eexists. eexists. eexists. split; [reflexivity|]. split; [split; assumption|].
  cbn. rewrite fd_get_set, Nat.eqb_refl. reflexivity.
Qed.

Lemma dup2_ok old n k o : calm k -> fd_get (k_fds k) old = Some o ->
  exists k', dup2 env old n k = Go true k' /\ calm k' /\ fd_get (k_fds k') old = Some o.
Proof.
  intros [F U] G. unfold dup2, bind. cbn. rewrite call_ok by assumption. rewrite G. cbn.
  eexists. split; [reflexivity|]. split; [split; assumption|]. cbn. rewrite fd_get_set.
  destruct (Nat.eqb_spec n old); [reflexivity|assumption].
Qed.

Lemma redirect_input_ok c log k : calm k ->
  exists s k', redirect_input env c log k = Go s k' /\ calm k'.
Proof.
  intros H. unfold redirect_input. destruct (input_path c) as [p|]; [|exists None, k; split; [reflexivity|assumption]].
  unfold bind. destruct (fopen_ok p MRead k H) as (s & k1 & o & -> & H1 & G).
  destruct (dup2_ok (s_fd s) 0 k1 o H1 G) as (k2 & -> & H2 & _). exists (Some s), k2. split; [reflexivity|assumption].
Qed.

Lemma redirect_output_ok c log i k : calm k ->
  exists s k', redirect_output env c log i k = Go s k' /\ calm k' /\
    (output_path c <> None -> exists f o, s = Some f /\ fd_get (k_fds k') (s_fd f) = Some o).
Proof.
  intros H. unfold redirect_output. destruct (output_path c) as [p|].
  2:{ exists None, k. split; [reflexivity|]. split; [assumption|congruence]. }
  unfold bind. destruct (fopen_ok p MWrite k H) as (s & k1 & o & -> & H1 & G).
  destruct (dup2_ok (s_fd s) 1 k1 o H1 G) as (k2 & -> & H2 & G2). exists (Some s), k2.
  split; [reflexivity|]. split; [assumption|]. intros _. exists s, o. split; [reflexivity|assumption].
Qed.

Lemma redirect_error_ok c log i o k : calm k ->
  (output_path c <> None -> exists f d, o = Some f /\ fd_get (k_fds k) (s_fd f) = Some d) ->
  exists s k', redirect_error env c log i o k = Go s k' /\ calm k'.
Proof.
  intros H Ho. unfold redirect_error. destruct (error_path c) as [p|]; [|exists None, k; split; [reflexivity|assumption]].
  assert (forall g, g = (fun f : option stream => match f with
                  | None => child_error_exit env log i o None DUP2_FAILED
                  | Some f => ret (Some f) end) ->
     exists s k', (error_file <- (f <- fopen env p MWrite ;; g f) ;;
       match error_file with
       | Some f => ok <- dup2 env (s_fd f) 2 ;; if ok then ret (Some f) else child_error_exit env log i o (Some f) DUP2_FAILED
       | None => fun _ => Stop CUB end) k = Go s k' /\ calm k') as Op.
  { intros g ->. unfold bind. destruct (fopen_ok p MWrite k H) as (s & k1 & d & -> & H1 & G). cbv beta iota. unfold ret at 1. cbv beta iota.
    destruct (dup2_ok (s_fd s) 2 k1 d H1 G) as (k2 & E & H2 & _). rewrite E.
    exists (Some s), k2. split; [reflexivity|assumption]. }
  destruct (output_path c) as [q|]; [|apply Op; reflexivity].
  destruct (str_eqb q p); [|apply Op; reflexivity].
  destruct (Ho ltac:(discriminate)) as (f & d & -> & G). unfold bind, ret.
  destruct (dup2_ok (s_fd f) 2 k d H G) as (k2 & -> & H2 & _). exists (Some f), k2. split; [reflexivity|assumption].
Qed.

Lemma drop_execs {A} c fail (K : M A) : 
  (forall k, k_filter k = [] -> exists p a v k', K k = Stop (CExec p a v k')) ->
  execs (drop_privileges env c fail K).
Proof.
  intros HK k [F U]. unfold drop_privileges.
  assert (forall k1, calm k1 -> exists p a v k',
     bind (if id_given (uid c) then setuid env (uid c) else ret true)
          (fun ok => if ok then K else fail) k1 = Stop (CExec p a v k')) as HU.
  { intros k1 [F1 U1]. destruct (id_given (uid c)).
    - unfold bind, setuid, get. unfold bind. rewrite call_ok by assumption. cbn [negb].
      rewrite U1. cbn. apply HK. assumption.
    - unfold bind, ret. apply HK; assumption. }
  destruct (id_given (gid c)).
  - assert (exists k1, setgid env (gid c) k = Go true k1 /\ calm k1) as (k1 & E1 & C1).
    { unfold setgid, bind, get. rewrite call_ok by assumption. cbn. rewrite U. cbn.
      eexists. split; [reflexivity|]. split; [assumption|reflexivity]. }
    assert (exists k2, setgroups env [gid c] k1 = Go true k2 /\ calm k2) as (k2 & E & C2).
    { destruct C1 as [F1 U1]. unfold setgroups, bind, get. rewrite call_ok by assumption. cbn. rewrite U1. cbn.
      eexists. split; [reflexivity|]. split; [assumption|reflexivity]. }
    specialize (HU k2 C2). unfold bind in *. rewrite E1, E. cbn [negb]. exact HU.
  - unfold bind at 1. cbn [ret negb]. unfold ret. cbn [negb]. apply HU. split; assumption.
Qed.
End AllOk.

Lemma select_filter_ok ok known p name :
  (forall n, ok n = true) -> known_rule name ->
  exists r, select_filter ok known p name = Some r.
Proof.
  intros H K. unfold select_filter. destruct name as [nm|]; [|eexists; reflexivity].
  unfold c_cpp_seccomp_rules, c_cpp_file_io_seccomp_rules, c_cpp_seccomp_rules_, general_seccomp_rules,
    golang_seccomp_rules, node_seccomp_rules.
  cbn [known_rule In] in K. rewrite !load_filter_ok by assumption.
  destruct K as [<-|[<-|[<-|[<-|[<-|[]]]]]]; eexists; reflexivity.
Qed.

Lemma c13_program_starts env log c k0 :
  ready c k0 -> all_succeed env -> known_rule (seccomp_rule_name c) -> euid (k_cred k0) = 0 ->
  exists p a v k, child_process env log c k0 = CExec p a v k.
Proof.
  intros R [O1 O2] K U. destruct R as (T & A & B & (Tr & F & _)).
  unfold child_process, child_process_m.
  assert (execs (child_process_m env log c)) as X.
  2:{ destruct (X k0 (conj F U)) as (p & a & v & k & E). unfold child_process_m in E. rewrite E. eauto. }
  unfold child_process_m, set_limits.
  assert (limited (max_cpu_time c) = true -> exists z, cpu_limit_seconds (max_cpu_time c) = Val z) as CPU.
  { intros L. eexists. apply cpu_seconds; try assumption.
    unfold limited in L. apply negb_true_iff, Z.eqb_neq in L. exact L. }
  do 5 (apply limit_block_execs; [assumption|intros; (eexists; reflexivity) || (apply CPU; assumption)|]).
  intros k1 C1. unfold bind at 1.
  destruct (redirect_input_ok env O1 c log k1 C1) as (i & k2 & -> & C2). unfold bind at 1.
  destruct (redirect_output_ok env O1 c log i k2 C2) as (o & k3 & -> & C3 & G). unfold bind at 1.
  destruct (redirect_error_ok env O1 c log i o k3 C3 G) as (e & k4 & -> & C4).
  apply drop_execs; [assumption| |assumption].
  intros k5 F5. unfold load_seccomp.
  destruct (select_filter_ok (ce_seccomp_ok env) (ce_has_execveat env) (ce_exe_ptr env) _ O2 K) as [r S].
  pose proof (select_filter_some _ _ _ _ _ S) as P. rewrite S.
  assert (forall k6, (k_filter k6 = [] \/ exists f nm, k_filter k6 = [f] /\ profile (ce_has_execveat env) (ce_exe_ptr env) nm f) ->
     exists p a v k', execve env c (child_error_exit env log i o e EXECVE_FAILED) k6 = @Stop unit (CExec p a v k')) as Ex.
  { intros k6 H6. unfold execve, bind, call.
    replace (filters_action (k_filter k6) _) with ActAllow.
    - rewrite O1. cbn. do 4 eexists. reflexivity.
    - destruct H6 as [H6|(f & nm & H6 & P6)]; rewrite H6; [reflexivity|].
      cbn [filters_action]. rewrite (profile_own_execve _ _ _ _ P6). reflexivity. }
  destruct (seccomp_rule_name c) as [nm|], r as [f|]; try contradiction.
  - unfold bind at 1. unfold bind at 1. unfold emit. apply Ex. cbn. rewrite F5. right. exists f, nm. split; [reflexivity|apply P].
  - apply Ex. left; assumption.
Qed.

(** *** C14 *)
Lemma c14_failure_ends env log c k0 :
  ready c k0 ->
  match child_process env log c k0 with
  | CExec _ _ _ _ => True
  | CUB => False
  | CKilled s k =>
      (s = 10 /\ ce_usr1_default env = true) \/
      (s = 25 /\ ce_xfsz_default env = true /\ log_over_limit env k) \/
      (s = 31 /\ seccomp_rule_name c <> None /\
       exists sc, error_call env sc /\ filters_action (k_filter k) sc = ActKill)
  | CExit n k => n = 1 /\ ce_usr1_default env = false
  end.
Proof.
  intros R. pose proof (child_final' env log c k0 R) as H.
  destruct (child_process env log c k0) as [p a v k|s k|n k|]; cbn in H.
  - exact I.
  - destruct H as (kf & [_ Rf] & _ & _ & _ & HF & D).
    destruct D as [(-> & U & _)|[(-> & X & L & _)|(-> & sc & E & A)]].
    + left. split; [reflexivity|assumption].
    + right; left. split; [reflexivity|]. split; assumption.
    + right; right. split; [reflexivity|]. split; [|exists sc; split; assumption].
      destruct Rf as [Rf|[Rf _]]; [|assumption].
      rewrite HF, Rf in A. discriminate.
  - destruct H as (kf & _ & _ & _ & _ & _ & -> & U & _). split; [reflexivity|assumption].
  - destruct H as (kf & _ & []).
Qed.

Lemma profile_allows_error known p nm f sc :
  profile known p nm f -> ~ whitelist_rule (Some nm) ->
  In sc [sys0 "write"; sys0 "flock"; sys0 "close"; sys0 "tgkill"] ->
  filter_action f sc = ActAllow.
Proof.
  intros P W H. destruct P.
  - exfalso; apply W; left; reflexivity.
  - exfalso; apply W; right; reflexivity.
  - cbn in H. destruct known; repeat destruct H as [<-|H]; try reflexivity; destruct H.
  - cbn in H. destruct known; repeat destruct H as [<-|H]; try reflexivity; destruct H.
  - cbn in H. destruct known; repeat destruct H as [<-|H]; try reflexivity; destruct H.
Qed.

Lemma c14_guarantee env log c k0 :
  ready c k0 -> ce_usr1_default env = true ->
  log_fits env c k0 ->
  ~ whitelist_rule (seccomp_rule_name c) ->
  (forall k sc, child_process env log c k0 = CKilled 31 k -> In sc (ce_libc_calls env) ->
     filters_action (k_filter k) sc <> ActKill) ->
  (exists p a v k, child_process env log c k0 = CExec p a v k) \/
  (exists k, child_process env log c k0 = CKilled 10 k).
Proof.
  intros R U L W HL. pose proof (child_final' env log c k0 R) as H.
  destruct (child_process env log c k0) as [p a v k|s k|n k|] eqn:EQ; cbn in H.
  - left. eauto 6.
  - right. destruct H as (kf & [RL Rf] & _ & _ & HR & HF & D).
    destruct D as [(-> & _)|[(-> & X & [LO1 LO2] & _)|(-> & sc & E & A)]].
    + exists k. reflexivity.
    + exfalso. destruct L as [L|[L|[L1 L2]]]; try congruence.
      rewrite HR in LO2. destruct RL as [RL|(v & Wv & RL)]; rewrite RL in LO2; [lia|].
      cbn in Wv, LO2. destruct (Z.eqb_spec (max_output_size c) (-1)) as [|N]; [discriminate|].
      injection Wv as <-. lia.
    + exfalso. destruct E as [E|(nm & E & ->)].
      * apply (HL k sc); auto.
      * destruct Rf as [Rf|[Nn Fl]]; [rewrite HF, Rf in A; discriminate|].
        unfold filter_loaded in Fl. destruct (seccomp_rule_name c) as [r|]; [|congruence].
        destruct Fl as (f & Fk & P & _). rewrite HF, Fk in A. cbn [filters_action] in A.
        rewrite (profile_allows_error _ _ _ _ (mkSys true nm (fun _ => 0)) P W) in A; [discriminate|].
        cbn in E. cbn. repeat destruct E as [<-|E]; auto; try (destruct E); unfold sys0; auto.
  - exfalso. destruct H as (kf & _ & _ & _ & _ & _ & _ & X & _). congruence.
  - exfalso. destruct H as (kf & _ & []).
Qed.

(** Under the whitelist profiles every failure after loading is reported as SIGSYS. *)
Lemma c14_whitelist_sigsys env log c k0 :
  ready c k0 -> whitelist_rule (seccomp_rule_name c) ->
  match child_process env log c k0 with
  | CKilled s k => k_filter k <> [] -> s = 31
  | CExit n k => k_filter k = []
  | _ => True
  end.
Proof.
  intros R W. pose proof (child_final' env log c k0 R) as H.
  assert (forall kf nm, In nm ["tgkill"; "flock"]%string -> reached env c k0 kf -> k_filter kf <> [] ->
     filters_action (k_filter kf) (sys0 nm) = ActKill) as Kl.
  { intros kf nm Hnm [_ [Rf|[_ Fl]]] N; [congruence|]. unfold filter_loaded in Fl.
    destruct (seccomp_rule_name c) as [r|]; [|destruct W; discriminate].
    destruct Fl as (f & -> & P & _). cbn [filters_action].
    assert (filter_action f (sys0 nm) = ActKill) as ->; [|reflexivity].
    destruct W as [W|W]; injection W as ->; inversion P; subst.
    - destruct (c_cpp_two_valued (ce_exe_ptr env) false (sys0 nm)) as [X|X]; [|exact X].
      destruct Hnm as [<-|[<-|[]]]; discriminate X.
    - destruct (c_cpp_two_valued (ce_exe_ptr env) true (sys0 nm)) as [X|X]; [|exact X].
      destruct Hnm as [<-|[<-|[]]]; discriminate X. }
  destruct (child_process env log c k0) as [p a v k|s k|n k|]; cbn in H; try exact I.
  - intros N. destruct H as (kf & Rf & _ & _ & _ & HF & D). rewrite HF in *.
    destruct D as [(_ & _ & D)|[(_ & _ & _ & D)|(-> & _)]]; [| |reflexivity].
    + exfalso; apply D, Kl; [cbn; auto|assumption|assumption].
    + exfalso; apply D, Kl; [cbn; auto|assumption|assumption].
  - destruct H as (kf & Rf & _ & _ & _ & HF & _ & _ & D). rewrite HF in *.
    destruct (k_filter kf) as [|f l] eqn:E; [reflexivity|]. exfalso. apply D.
    rewrite <- E. apply Kl; [cbn; auto|assumption|congruence].
Qed.

(** *** C15, C07 *)
Lemma c15_limits env log c k0 p a v k :
  ready c k0 -> child_process env log c k0 = CExec p a v k ->
  forall r,
    k_rlim k r = match wanted_limit c r with Some z => (z, z) | None => k_rlim k0 r end /\
    (forall z, wanted_limit c r = Some z -> 1 <= z < 18446744073709551615).
Proof.
  intros R E r. destruct (exec_inv _ _ _ _ _ _ _ _ R E) as (_ & _ & L & _).
  split; [apply L|]. intros z Hz.
  destruct R as (T & A & B & _). destruct A as (A1 & A2 & A3 & A4 & A5 & A6).
  destruct T as (T1 & T2 & T3 & T4 & T5 & T6 & _). unfold limit_ok, INT_MAX, LONG_MAX in *.
  destruct r; cbn [wanted_limit] in Hz.
  - injection Hz as <-. lia.
  - destruct (Z.eqb_spec (max_memory c) (-1)); cbn [orb] in Hz; [discriminate|].
    destruct (memory_limit_check_only c =? 0); [|discriminate]. cbn [negb] in Hz. assert (2 * max_memory c = z) by congruence. lia.
  - destruct (Z.eqb_spec (max_cpu_time c) (-1)); [discriminate|]. injection Hz as <-.
    assert (0 <= max_cpu_time c / 1000 <= max_cpu_time c).
    { split; [apply Z.div_pos; lia|apply Z.div_le_upper_bound; lia]. } lia.
  - destruct (Z.eqb_spec (max_process_number c) (-1)); [discriminate|]. injection Hz as <-. lia.
  - destruct (Z.eqb_spec (max_output_size c) (-1)); [discriminate|]. injection Hz as <-. lia.
Qed.

(** *** C16 *)
Lemma c16_granularity c v :
  wanted_limit c RCpu = Some v -> max_cpu_time c < 1000 * v <= max_cpu_time c + 1000.
Proof.
  cbn [wanted_limit]. destruct (max_cpu_time c =? -1); [discriminate|]. intros E.
  assert (max_cpu_time c / 1000 + 1 = v) as <- by congruence.
  pose proof (Z.div_mod (max_cpu_time c) 1000 ltac:(lia)).
  pose proof (Z.mod_pos_bound (max_cpu_time c) 1000 ltac:(lia)). lia.
Qed.

Lemma c16_kernel_limit_is_tle c e o ru v r ef :
  judged c e o ru -> env_fits e -> wanted_limit c RCpu = Some v ->
  us (ru_utime ru) >= 1000000 * v ->
  (forall core, o <> Killed 10 core) -> (forall core, o <> Killed 11 core) ->
  run c e = Returns (Val r) ef -> verdict r = 1.
Proof.
  intros J Fi W Us N10 N11 Rn. pose proof (c16_granularity _ _ W) as G.
  destruct (c01_verdict_table _ _ _ _ J) as (r' & ef' & R' & _ & VT). rewrite Rn in R'. injection R' as <- <-.
  destruct (c01_measured _ _ _ _ J Fi N10) as (r' & ef' & R' & M & _). rewrite Rn in R'. injection R' as <- <-.
  assert (exceeded (max_cpu_time c) (cpu_time r)) as X.
  { split.
    - intros E. cbn in W. rewrite E in W. discriminate.
    - rewrite M. unfold cpu_ms. apply Z.lt_le_trans with (1000 * v); [lia|].
      apply Z.div_le_lower_bound; lia. }
  apply (verdict_table_inj _ _ _ _ _ _ _ _ 1 VT).
  destruct o as [n|s core|s]; cbn; try (left; split; [exact X|reflexivity]).
  assert (s <> 10) by (intros ->; apply (N10 core); reflexivity).
  assert (s <> 11) by (intros ->; apply (N11 core); reflexivity).
  destruct s as [|s|s]; try (left; split; [exact X|reflexivity]).
  do 5 (destruct s as [s|s|]; try (left; split; [exact X|reflexivity]); try congruence).
Qed.

(** *** C17 *)
Lemma c17_child_no_overflow env log c k0 :
  config_typed c -> limits_accepted c -> forked k0 -> max_cpu_time c <= 2147482647 ->
  child_process env log c k0 <> CUB.
Proof.
  intros T A F B E.
  pose proof (child_final' env log c k0 (conj T (conj A (conj B F)))) as H. rewrite E in H.
  destruct H as (kf & _ & []).
Qed.

Lemma limit_block_cub {A} env log active r v (K : M A) :
  (forall n, ce_ok env n = true) ->
  (forall k, k_filter k = [] -> K k = Stop CUB) ->
  forall k, k_filter k = [] -> limit_block env log active r (Val v) K k = Stop CUB.
Proof.
  intros O HK k F. unfold limit_block. destruct active; [|apply HK; assumption].
  unfold bind at 1. unfold setrlimit. unfold bind at 1. rewrite call_ok by assumption.
  unfold bind, emit, ret. apply HK. assumption.
Qed.

Lemma c17_child_overflow env log c k0 :
  forked k0 -> max_cpu_time c > 2147482647 ->
  (forall n, ce_ok env n = true) ->
  child_process env log c k0 = CUB.
Proof.
  intros F B O. unfold child_process.
  assert (child_process_m env log c k0 = Stop CUB) as ->; [|reflexivity].
  unfold child_process_m, set_limits. destruct F as (_ & F & _). revert k0 F.
  do 2 (apply limit_block_cub; [assumption|]).
  intros k F. unfold limit_block, limited, cpu_limit_seconds, int_op, in_int.
  replace (max_cpu_time c =? UNLIMITED) with false by (symmetry; apply Z.eqb_neq; unfold UNLIMITED; lia).
  replace (max_cpu_time c + 1000 <=? INT_MAX) with false by (symmetry; apply Z.leb_gt; unfold INT_MAX; lia).
  rewrite andb_false_r. reflexivity.
Qed.

(** *** C18, C19, C20, C21 *)
Lemma c18_standard_streams env log c k0 p a v k :
  ready c k0 -> child_process env log c k0 = CExec p a v k ->
  (forall q, input_path c = Some q -> redirected k0 k 0 q MRead) /\
  (forall q, output_path c = Some q -> redirected k0 k 1 q MWrite) /\
  (forall q, error_path c = Some q -> redirected k0 k 2 q MWrite) /\
  (forall q1 q2, output_path c = Some q1 -> error_path c = Some q2 ->
     forall o1 o2, descriptor k 1 = Some o1 -> descriptor k 2 = Some o2 ->
     (of_id o1 = of_id o2 <-> q1 = q2)).
Proof. intros R E. destruct (exec_inv _ _ _ _ _ _ _ _ R E) as (_ & _ & _ & S & _). exact S. Qed.

Lemma c19_inherited env log c k0 p a v k :
  ready c k0 -> child_process env log c k0 = CExec p a v k ->
  (forall n o, (3 <= n)%nat -> descriptor k0 n = Some o -> descriptor k n = Some o) /\
  (forall n o, descriptor k n = Some o ->
     descriptor k0 n = Some o \/
     ((k_next k0 <= of_id o)%nat /\
      ((input_path c = Some (of_path o) /\ of_mode o = MRead) \/
       ((output_path c = Some (of_path o) \/ error_path c = Some (of_path o)) /\ of_mode o = MWrite)))).
Proof. intros R E. destruct (exec_inv _ _ _ _ _ _ _ _ R E) as (_ & _ & _ & _ & F & _). exact F. Qed.

Lemma c20_privileges env log c k0 p a v k :
  ready c k0 -> euid (k_cred k0) = 0 -> child_process env log c k0 = CExec p a v k ->
  dropped c k /\
  (gid c = keep_id -> rgid (k_cred k) = rgid (k_cred k0) /\ egid (k_cred k) = egid (k_cred k0) /\
     sgid (k_cred k) = sgid (k_cred k0) /\ groups (k_cred k) = groups (k_cred k0)) /\
  (uid c = keep_id -> ruid (k_cred k) = ruid (k_cred k0) /\ euid (k_cred k) = euid (k_cred k0) /\
     suid (k_cred k) = suid (k_cred k0)).
Proof. intros R U E. destruct (exec_inv _ _ _ _ _ _ _ _ R E) as (_ & _ & _ & _ & _ & C & _). exact (C U). Qed.

Lemma c21_closed_once env log c k0 :
  ready c k0 ->
  child_process env log c k0 <> CUB /\
  (forall k, dead_state (child_process env log c k0) = Some k ->
     NoDup (closed (k_trace k)) /\ incl (closed (k_trace k)) (opened (k_trace k))) /\
  (forall p a v k, child_process env log c k0 = CExec p a v k -> closed (k_trace k) = []).
Proof.
  intros R. pose proof (child_final' env log c k0 R) as H.
  destruct (child_process env log c k0) as [p a v k|s k|n k|]; cbn in H.
  - split; [discriminate|]. split; [discriminate|]. intros p' a' v' k' E. injection E as <- <- <- <-. apply H.
  - split; [discriminate|]. split; [|discriminate]. intros k' E. injection E as <-.
    destruct H as (kf & _ & N & I & _). split; assumption.
  - split; [discriminate|]. split; [|discriminate]. intros k' E. injection E as <-.
    destruct H as (kf & _ & N & I & _). split; assumption.
  - destruct H as (kf & _ & []).
Qed.

(** *** C22-C28 *)
Lemma exec_filter env log c k0 p a v k :
  ready c k0 -> child_process env log c k0 = CExec p a v k -> filter_loaded env c k.
Proof. intros R E. destruct (exec_inv _ _ _ _ _ _ _ _ R E) as (_ & _ & _ & _ & _ & _ & F & _). exact F. Qed.

Lemma single_filter f sc : filters_action [f] sc = filter_action f sc.
Proof. cbn. destruct (filter_action f sc); reflexivity. Qed.

Lemma exec_profile env log c k0 p a v k nm :
  ready c k0 -> child_process env log c k0 = CExec p a v k -> seccomp_rule_name c = Some nm ->
  exists f, k_filter k = [f] /\ profile (ce_has_execveat env) (ce_exe_ptr env) nm f.
Proof.
  intros R E N. pose proof (exec_filter _ _ _ _ _ _ _ _ R E) as F. unfold filter_loaded in F.
  rewrite N in F. destruct F as (f & F1 & F2 & _). exists f. split; assumption.
Qed.

Lemma c22_selection env log c k0 p a v k :
  ready c k0 -> child_process env log c k0 = CExec p a v k ->
  known_rule (seccomp_rule_name c) /\
  (seccomp_rule_name c = None -> forall sc, filters_action (k_filter k) sc = ActAllow).
Proof.
  intros R E. pose proof (exec_filter _ _ _ _ _ _ _ _ R E) as F. unfold filter_loaded in F.
  destruct (seccomp_rule_name c) as [nm|]; split.
  - destruct F as (f & _ & P & _). cbn. destruct P; auto 6.
  - discriminate.
  - exact I.
  - intros _ sc. rewrite F. reflexivity.
Qed.

Lemma c24_c_cpp env log c k0 p a v k :
  ready c k0 -> child_process env log c k0 = CExec p a v k ->
  seccomp_rule_name c = Some (lit "c_cpp") ->
  forall sc, (filters_action (k_filter k) sc = ActAllow <-> c_cpp_permits (ce_exe_ptr env) sc) /\
             (filters_action (k_filter k) sc = ActKill <-> ~ c_cpp_permits (ce_exe_ptr env) sc).
Proof.
  intros R E N sc. destruct (exec_profile _ _ _ _ _ _ _ _ _ R E N) as (f & -> & P).
  rewrite single_filter. inversion P; subst.
  pose proof (c_cpp_allow_iff (ce_exe_ptr env) sc) as A.
  destruct (c_cpp_two_valued (ce_exe_ptr env) false sc) as [X|X]; rewrite X in *; split; try assumption;
    split; try discriminate; try reflexivity; try tauto.
  intros _ Y. apply A in Y. discriminate.
Qed.

Lemma c24_c_cpp_file_io env log c k0 p a v k :
  ready c k0 -> child_process env log c k0 = CExec p a v k ->
  seccomp_rule_name c = Some (lit "c_cpp_file_io") ->
  forall sc, (filters_action (k_filter k) sc = ActAllow <-> c_cpp_file_io_permits (ce_exe_ptr env) sc) /\
             (filters_action (k_filter k) sc = ActKill <-> ~ c_cpp_file_io_permits (ce_exe_ptr env) sc).
Proof.
  intros R E N sc. destruct (exec_profile _ _ _ _ _ _ _ _ _ R E N) as (f & -> & P).
  rewrite single_filter. inversion P; subst.
  pose proof (c_cpp_file_io_allow_iff (ce_exe_ptr env) sc) as A.
  destruct (c_cpp_two_valued (ce_exe_ptr env) true sc) as [X|X]; rewrite X in *; split; try assumption;
    split; try discriminate; try reflexivity; try tauto.
  intros _ Y. apply A in Y. discriminate.
Qed.

Lemma c26_general env log c k0 p a v k :
  ready c k0 -> child_process env log c k0 = CExec p a v k ->
  seccomp_rule_name c = Some (lit "general") ->
  forall sc,
    let kills := general_kills (ce_has_execveat env) (ce_exe_ptr env) sc in
    (filters_action (k_filter k) sc = ActKill <-> kills) /\
    (filters_action (k_filter k) sc = ActErrno 13 <-> sc_native sc = true /\ sc_name sc = "socket"%string) /\
    (filters_action (k_filter k) sc = ActAllow <-> ~ kills /\ sc_name sc <> "socket"%string).
Proof.
  intros R E N sc kills. destruct (exec_profile _ _ _ _ _ _ _ _ _ R E N) as (f & -> & P).
  rewrite single_filter. inversion P; subst. apply general_action.
Qed.

Lemma c27_golang env log c k0 p a v k :
  ready c k0 -> child_process env log c k0 = CExec p a v k ->
  seccomp_rule_name c = Some (lit "golang") ->
  forall sc,
    (filters_action (k_filter k) sc = ActKill <-> golang_kills (ce_has_execveat env) sc) /\
    (filters_action (k_filter k) sc = ActAllow <-> ~ golang_kills (ce_has_execveat env) sc).
Proof.
  intros R E N sc. destruct (exec_profile _ _ _ _ _ _ _ _ _ R E N) as (f & -> & P).
  rewrite single_filter. inversion P; subst. apply golang_action.
Qed.

Lemma c27_node env log c k0 p a v k :
  ready c k0 -> child_process env log c k0 = CExec p a v k ->
  seccomp_rule_name c = Some (lit "node") ->
  forall sc,
    (filters_action (k_filter k) sc = ActKill <-> node_kills (ce_has_execveat env) sc) /\
    (filters_action (k_filter k) sc = ActAllow <-> ~ node_kills (ce_has_execveat env) sc).
Proof.
  intros R E N sc. destruct (exec_profile _ _ _ _ _ _ _ _ _ R E N) as (f & -> & P).
  rewrite single_filter. inversion P; subst. apply node_action.
Qed.

Lemma c28_execve_pointer env log c k0 p a v k nm :
  ready c k0 -> child_process env log c k0 = CExec p a v k ->
  seccomp_rule_name c = Some nm -> In nm [lit "c_cpp"; lit "c_cpp_file_io"; lit "general"] ->
  forall sc, sc_native sc = true -> sc_name sc = "execve"%string ->
    (filters_action (k_filter k) sc = ActAllow <-> sc_arg sc 0 = ce_exe_ptr env) /\
    (filters_action (k_filter k) sc = ActKill <-> sc_arg sc 0 <> ce_exe_ptr env).
Proof.
  intros R E N Hn sc Na Nm.
  assert (~ In (sc_name sc) harmless) as NH.
  { rewrite Nm. intros X. apply existsb_In in X. discriminate X. }
  cbn in Hn. destruct Hn as [<-|[<-|[<-|[]]]].
  - destruct (c24_c_cpp _ _ _ _ _ _ _ _ R E N sc) as [A B]. rewrite A, B. unfold c_cpp_permits.
    assert (open_flags sc = None) as OF by (unfold open_flags; rewrite Nm; reflexivity). rewrite OF.
    split; split.
    + intros (_ & [X|[[_ X]|(fl & X & _)]]); [contradiction|assumption|discriminate].
    + intros X. split; [assumption|]. right; left. split; assumption.
    + intros H X. apply H. split; [assumption|]. right; left. split; assumption.
    + intros X (_ & [Y|[[_ Y]|(fl & Y & _)]]); [contradiction|contradiction|discriminate].
  - destruct (c24_c_cpp_file_io _ _ _ _ _ _ _ _ R E N sc) as [A B]. rewrite A, B. unfold c_cpp_file_io_permits.
    assert (~ In (sc_name sc) ["open"; "openat"; "dup"; "dup2"; "dup3"]%string) as NO
      by (rewrite Nm; cbn; intuition discriminate).
    intuition.
  - destruct (c26_general _ _ _ _ _ _ _ _ R E N sc) as (A & _ & B). rewrite A, B. unfold general_kills, is_execveat.
    assert (open_flags sc = None) as OF by (unfold open_flags; rewrite Nm; reflexivity). rewrite OF, Nm, Na.
    cbn [In]. split; split.
    + intros [H _]. destruct (Z.eq_dec (sc_arg sc 0) (ce_exe_ptr env)); [assumption|]. exfalso. apply H.
      right; right; right; left. split; [reflexivity|assumption].
    + intros X. split; [|discriminate].
      intros [H|[H|[[_ H]|[[_ H]|(fl & H & _)]]]]; try discriminate; try contradiction; intuition discriminate.
    + intros [H|[H|[[_ H]|[[_ H]|(fl & H & _)]]]]; try discriminate; try assumption; intuition discriminate.
    + intros X. right; right; right; left. split; [reflexivity|assumption].
Qed.

(** *** C23 *)
Lemma c23_fail_closed env log c k0 nm p a v k :
  ready c k0 -> seccomp_rule_name c = Some nm ->
  child_process env log c k0 = CExec p a v k ->
  forall i, (i < seccomp_calls (ce_has_execveat env) nm)%nat -> ce_seccomp_ok env i = true.
Proof.
  intros R N E i Hi. pose proof (exec_filter _ _ _ _ _ _ _ _ R E) as F. unfold filter_loaded in F.
  rewrite N in F. destruct F as (f & _ & P & H). apply H.
  destruct P; unfold seccomp_calls in Hi; cbn in Hi |- *; destruct (ce_has_execveat env); cbn in Hi |- *; lia.
Qed.

(** *** C29 *)
Lemma c29_limits c z :
  z <> 0 -> forall r, wanted_limit (with_check_only c z) r = if res_eqb r RAs then None else wanted_limit c r.
Proof.
  intros Z0 r. destruct r; cbn -[Z.mul]; try reflexivity.
  replace (z =? 0) with false by (symmetry; apply Z.eqb_neq; assumption). cbn. rewrite orb_true_r. reflexivity.
Qed.

Definition not_as (s : sstep) : bool := match s with SLimit RAs _ => false | _ => true end.

Lemma filter_all {A} (f : A -> bool) l : (forall x, In x l -> f x = true) -> List.filter f l = l.
Proof.
  induction l as [|x l IH]; simpl; intros H; [reflexivity|]. rewrite (H x) by (left; reflexivity).
  f_equal. apply IH. intros y Hy. apply H. right; assumption.
Qed.

Lemma c29_script c z :
  z <> 0 -> sandbox_script (with_check_only c z) = List.filter not_as (sandbox_script c).
Proof.
  intros Z0. unfold sandbox_script. rewrite !List.filter_app.
  f_equal; [|f_equal; [|f_equal; [|f_equal; [|f_equal; [|f_equal]]]]].
  - unfold limit_steps. cbn [flat_map]. rewrite !c29_limits by assumption. cbn [res_eqb].
    destruct (wanted_limit c RStack), (wanted_limit c RAs), (wanted_limit c RCpu), (wanted_limit c RNproc),
      (wanted_limit c RFsize); reflexivity.
  - change (input_steps (with_check_only c z)) with (input_steps c). symmetry. apply filter_all. unfold input_steps. destruct (input_path c); cbn; intuition (subst; reflexivity).
  - change (output_steps (with_check_only c z)) with (output_steps c). symmetry. apply filter_all. unfold output_steps. destruct (output_path c); cbn; intuition (subst; reflexivity).
  - change (error_steps (with_check_only c z)) with (error_steps c). symmetry. apply filter_all. unfold error_steps. destruct (error_path c), (output_path c); cbn; try (destruct (str_eqb _ _)); cbn; intuition (subst; reflexivity).
  - change (id_steps (with_check_only c z)) with (id_steps c). symmetry. apply filter_all. unfold id_steps. destruct (gid c =? keep_id), (uid c =? keep_id); cbn; intuition (subst; reflexivity).
  - change (filter_steps (with_check_only c z)) with (filter_steps c). symmetry. apply filter_all. unfold filter_steps. destruct (seccomp_rule_name c); cbn; intuition (subst; reflexivity).
Qed.

Lemma c29_run c z e : run (with_check_only c z) e = run c e.
Proof. reflexivity. Qed.
