(** C63: what the output of the judger says about what happened. *)
From Coq Require Import ZArith Bool List Ascii String Lia.
From Verif.Base Require Import CInt CStr.
From Verif.Model Require Import Config Runner Seccomp Child Argtable Main Messages.
From Verif.Model Require Import Timeout Judger.
From Verif.Spec Require Import Verdict RunSpec TimeoutSpec JudgerSpec.
From Verif.Spec Require IntText SandboxSpec.
From Verif.Spec Require Import CmdLine Invocation MessageSpec OutputSpec.
From Verif.Spec Require Json.
From Verif.Proofs Require ChildProofs ChildExec ChildClaims.
From Verif.Proofs Require Import RunnerProofs RunnerClaims TimeoutProofs TimeoutReport JudgerProofs.
From Verif.Proofs Require Import MainProofs InvocationClaims CommandClaims MessageProofs.
From Verif.Proofs Require JsonProofs OutputProofs.
Import ListNotations.
Open Scope list_scope.
Open Scope Z_scope.

(** ** The configuration *)
Lemma number_typed es acc n d m :
  (forall n k m, In (mkOpt n k m) judger_options -> Forall2 (meaning k) (given n es) (taken n acc)) ->
  In (mkOpt (lit n) Number m) judger_options -> IntText.is_int d -> IntText.is_int (number_of acc n d).
Proof.
  intros M I D. unfold number_of. specialize (M _ _ _ I). clear - M D.
  destruct M as [|v x vs xs M F]; [exact D|]. destruct v as [v|], x; cbn in M; try (destruct M; fail). apply M.
Qed.

Lemma configured_typed es c : configured_by es c -> config_typed c.
Proof.
  intros (acc & (E1 & E2 & E3 & E4 & E5 & E6 & E7 & _ & _ & _ & _ & _ & _ & _ & _ & E8 & E9) & M).
  assert (forall n d m, In (mkOpt (lit n) Number m) judger_options -> -2147483648 <= d <= 2147483647 ->
    -2147483648 <= number_of acc n d <= 2147483647) as T.
  { intros n d m I D. exact (number_typed es acc n d m M I D). }
  unfold config_typed. rewrite E1, E2, E3, E4, E5, E6, E8, E9.
  unfold INT_MIN, INT_MAX, LONG_MIN, LONG_MAX, U32_MOD.
  assert (-2147483648 <= number_of acc "max_cpu_time" (-1) <= 2147483647) by (apply T with (m := 1%nat); [in_options|lia]).
  assert (-2147483648 <= number_of acc "max_real_time" (-1) <= 2147483647) by (apply T with (m := 1%nat); [in_options|lia]).
  assert (-2147483648 <= number_of acc "max_memory" (-1) <= 2147483647) by (apply T with (m := 1%nat); [in_options|lia]).
  assert (-2147483648 <= number_of acc "max_stack" 16777216 <= 2147483647) by (apply T with (m := 1%nat); [in_options|lia]).
  assert (-2147483648 <= number_of acc "max_process_number" (-1) <= 2147483647) by (apply T with (m := 1%nat); [in_options|lia]).
  assert (-2147483648 <= number_of acc "max_output_size" (-1) <= 2147483647) by (apply T with (m := 1%nat); [in_options|lia]).
  assert (0 <= memory_limit_check_only c <= 1) by (rewrite E7; destruct (number_of acc "memory_limit_check_only" 0 =? 0); lia).
  pose proof (Z.mod_pos_bound (number_of acc "uid" 65534) (2 ^ 32)) as B1.
  pose proof (Z.mod_pos_bound (number_of acc "gid" 65534) (2 ^ 32)) as B2.
  change (2 ^ 32) with 4294967296 in *. repeat split; try lia.
Qed.

Lemma refusal_none W c : refusal W c = None -> w_uid W = 0 /\ limits_accepted c.
Proof.
  unfold refusal. destruct (w_uid W =? 0) eqn:U; cbn [negb]; [|discriminate].
  destruct (config_invalid c) eqn:I; [discriminate|]. intros _. split; [lia|apply config_invalid_iff; exact I].
Qed.
Lemma refusal_some W c code : refusal W c = Some code ->
  (code = ROOT_REQUIRED /\ w_uid W <> 0) \/ (code = INVALID_CONFIG /\ w_uid W = 0 /\ ~ limits_accepted c).
Proof.
  unfold refusal. destruct (w_uid W =? 0) eqn:U; cbn [negb].
  - destruct (config_invalid c) eqn:I; [|discriminate]. intros H. injection H as <-. right. split; [reflexivity|]. split; [lia|].
    intros A. apply config_invalid_iff in A. congruence.
  - intros H. injection H as <-. left. split; [reflexivity|lia].
Qed.

(** ** A CPU limit that cannot be rounded to seconds is never reached *)
Section Cpu.
Variables (env : child_env) (c : config) (log : option stream).
Definition not_exec (e : child_end) : Prop := match e with CExec _ _ _ _ => False | CExit n _ => n = 1 | CKilled n _ => n = 10 \/ n = 25 \/ n = 31 | CUB => True end.
Definition empty (k : kstate) : Prop :=
  k_filter k = [] /\ SandboxSpec.closed (k_trace k) = [] /\ SandboxSpec.opened (k_trace k) = [].

Lemma block_no_exec {A} active r v (K : M A) :
  (forall k, empty k -> ChildProofs.wp K (fun _ _ => False) not_exec k) ->
  forall k, empty k -> ChildProofs.wp (limit_block env log active r v K) (fun _ _ => False) not_exec k.
Proof.
  intros HK k E. unfold limit_block. destruct active; [|apply HK; exact E]. destruct v as [z|]; [|exact I].
  apply ChildProofs.wp_bind. apply ChildProofs.wp_bind. apply ChildProofs.wp_call0; [apply E|].
  destruct (ce_ok env (k_calls k)).
  - unfold ChildProofs.wp at 1, bind, emit, ret. cbn. apply HK. destruct E as (F & C & O). unfold empty. cbn.
    rewrite ChildProofs.closed_app, ChildProofs.opened_app, C, O. auto.
  - unfold ChildProofs.wp at 1, ret. cbn. destruct E as (F & C & O).
    eapply ChildProofs.wp_conseq; [apply ChildProofs.wp_error_exit with (c := c)| |].
    + left. exact F.
    + unfold ChildProofs.files_inv, ChildProofs.to_close. cbn. rewrite C, O. cbn. split; [constructor|intros x []].
    + intros a k' H. exact H.
    + intros [p a v k'| | |]; cbn; tauto.
Qed.

Lemma large_cpu k0 : SandboxSpec.forked k0 -> max_cpu_time c > 2147482647 -> not_exec (child_process env log c k0).
Proof.
  intros (Tr & F & _) H.
  assert (ChildProofs.wp (child_process_m env log c) (fun _ _ => False) not_exec k0) as W.
  { unfold child_process_m, set_limits. assert (empty k0) as E0 by (unfold empty; rewrite Tr; auto).
    revert E0. clear Tr F. revert k0. do 2 (apply block_no_exec).
    intros k1 _. unfold limit_block, limited, cpu_limit_seconds, int_op, in_int.
    replace (max_cpu_time c =? UNLIMITED) with false by (symmetry; apply Z.eqb_neq; unfold UNLIMITED; lia).
    replace (max_cpu_time c + 1000 <=? INT_MAX) with false by (symmetry; apply Z.leb_gt; unfold INT_MAX; lia).
    rewrite andb_false_r. exact I. }
  unfold child_process. unfold ChildProofs.wp in W. destruct (child_process_m env log c k0) as [x k'|e]; [destruct W|exact W].
Qed.
Lemma exec_cpu k0 p a v k : SandboxSpec.forked k0 -> child_process env log c k0 = CExec p a v k -> max_cpu_time c <= 2147482647.
Proof.
  intros F E. destruct (Z_le_gt_dec (max_cpu_time c) 2147482647) as [H|H]; [exact H|exfalso].
  pose proof (large_cpu k0 F H) as X. rewrite E in X. exact X.
Qed.
Lemma exits_1 k0 n k : config_typed c -> limits_accepted c -> SandboxSpec.forked k0 -> child_process env log c k0 = CExit n k -> n = 1.
Proof.
  intros T L F E. destruct (Z_le_gt_dec (max_cpu_time c) 2147482647) as [H|H].
  - pose proof (ChildClaims.c14_failure_ends env log c k0 (conj T (conj L (conj H F)))) as X. rewrite E in X. apply X.
  - pose proof (large_cpu k0 F H) as X. rewrite E in X. exact X.
Qed.
Lemma killed_by k0 n k : config_typed c -> limits_accepted c -> SandboxSpec.forked k0 -> child_process env log c k0 = CKilled n k ->
  n = 10 \/ n = 25 \/ n = 31.
Proof.
  intros T L F E. destruct (Z_le_gt_dec (max_cpu_time c) 2147482647) as [H|H].
  - pose proof (ChildClaims.c14_failure_ends env log c k0 (conj T (conj L (conj H F)))) as X. rewrite E in X. tauto.
  - pose proof (large_cpu k0 F H) as X. rewrite E in X. exact X.
Qed.
End Cpu.

(** ** Histories *)
Section History.
Variables (W : world) (c : config).
Local Notation P := (params W c).

Lemma started_sandboxed ops s : config_typed c -> limits_accepted c -> world_ok W ->
  gexec W c (ginit W) ops = Some s -> In Execs ops -> sandboxed W c /\ SandboxSpec.ready c (w_k0 W).
Proof.
  intros T L (_ & F) E I. destruct (told_exec W c ops s E) as (_ & X & _). destruct (X I) as (p & a & v & k & S).
  pose proof (exec_cpu _ _ _ _ _ _ _ _ F S) as Cpu. assert (SandboxSpec.ready c (w_k0 W)) as R by (repeat split; assumption || apply T || apply L || apply F).
  destruct (ChildClaims.c13_complete_sandbox _ _ _ _ _ _ _ _ R S) as (-> & -> & -> & Sc). split; [|exact R].
  exists k. auto.
Qed.

(** The process exists once run() is past fork. *)
Definition past_fork (s : tstate) : Prop :=
  match ppc s with
  | PStart | PFork _ => True
  | PReturned (Val r) => error r <> FORK_FAILED -> proc_st s <> NotForked
  | _ => proc_st s <> NotForked
  end.
Local Opaque judge tv wait_status.
Lemma past_step s o s' : past_fork s -> step P s o = Some s' -> past_fork s'.
Proof.
  intros Pf St. unfold past_fork in *. step_cases St; tcbn_all.
  all: repeat match goal with E : ppc ?v = _ |- _ => rewrite E in *; clear E end.
  all: repeat match goal with E : proc_st ?v = _ |- _ => rewrite E in *; clear E end.
  all: try discriminate; try exact I; try exact Pf; try (intros _; exact Pf).
  all: try (destruct (judge _ _ _ _ _); try (intros _; exact Pf); exact Pf).
  all: subst; cbn in *; try (intros N; congruence); try exact Pf; try (intros _; exact Pf); try discriminate; try congruence.
  all: match goal with |- match ?pp with _ => _ end => destruct pp as [| | | | | | | | |[]] end; try exact I; try discriminate; intros _; discriminate.
Qed.
Lemma past_exec ops : forall s s', past_fork s -> exec P s ops = Some s' -> past_fork s'.
Proof.
  induction ops as [|o ops IH]; intros s s' Pf E; cbn in E; [injection E as <-; exact Pf|].
  destruct (step P s o) as [s1|] eqn:St; [|discriminate]. exact (IH _ _ (past_step _ _ _ Pf St) E).
Qed.

Lemma no_ub ops s r : gexec W c (ginit W) ops = Some s -> ppc (g_t s) = PReturned (Val r) -> error r = 0 ->
  undefined_in W c s = false -> set_up W c <> CUB.
Proof.
  intros E R Z U X. assert (past_fork (g_t s)) as Pf.
  { apply (past_exec (plain_ops ops) (g_t (ginit W))); [exact I|]. exact (gexec_exec W c ops _ _ E). }
  unfold past_fork in Pf. rewrite R in Pf. rewrite Z in Pf. specialize (Pf ltac:(discriminate)).
  unfold undefined_in in U. rewrite X in U. destruct (ubs (g_t s)); [|discriminate U]. destruct (proc_st (g_t s)); try discriminate U.
  apply Pf. reflexivity.
Qed.

Lemma ended_happened ops o : set_up W c <> CUB -> ended W c ops o -> happened W c ops o.
Proof. destruct o; cbn; tauto. Qed.

(** A result without error is that of what happened to the process. *)
Lemma ran_verdict ops s r :
  limits_accepted c -> world_ok W -> measurable W (Ran c ops s) -> undefined_in W c s = false ->
  gexec W c (ginit W) ops = Some s -> ppc (g_t s) = PReturned (Val r) -> error r = 0 ->
  exists o, happened W c ops o /\ wf_outcome o /\
    verdict_table (max_cpu_time c) (max_real_time c) (max_memory c) o (cpu_time r) (real_time r) (memory r) (verdict r) /\
    match o with Exited n => signal r = 0 /\ exit_code r = n | Killed sg _ => signal r = sg /\ exit_code r = 0 | Stopped _ => True end.
Proof.
  intros L Wo Me U E R Z. destruct (ran_judged W c ops s r L Wo Me E R Z) as (e & o & ru & ef & J & Fi & Ru & En & _).
  exists o. split; [apply ended_happened; [eapply no_ub; eassumption|exact En]|]. split; [apply (judged_ok _ _ _ _ J)|].
  destruct (c01_verdict_table _ _ _ _ J) as (r1 & ef1 & Ru1 & _ & T). rewrite Ru in Ru1. injection Ru1 as <- _.
  destruct (c04_signal_exit_code _ _ _ _ J) as (r2 & ef2 & Ru2 & Sg). rewrite Ru in Ru2. injection Ru2 as <- _.
  split; [exact T|]. destruct o; tauto.
Qed.

Lemma ran_success ops s r :
  config_typed c -> limits_accepted c -> world_ok W -> measurable W (Ran c ops s) -> undefined_in W c s = false ->
  gexec W c (ginit W) ops = Some s -> ppc (g_t s) = PReturned (Val r) -> error r = 0 -> verdict r = 0 ->
  In Execs ops /\ sandboxed W c /\ by_the_program ops (Sys (Exit 0)) /\ exit_code r = 0 /\ signal r = 0 /\ within_limits c r.
Proof.
  intros T L Wo Me U E R Z V. destruct (ran_verdict ops s r L Wo Me U E R Z) as (o & H & Wf & Tb & Sg).
  rewrite V in Tb. apply (table_success _ _ _ _ _ _ _ Wf) in Tb. destruct Tb as (-> & A & B & D). cbn in H.
  assert (by_the_program ops (Sys (Exit 0))) as By.
  { destruct H as [H|(k & H)]; [exact H|exfalso].
    pose proof (exits_1 _ _ _ _ _ _ T L (proj2 Wo) H). discriminate. }
  destruct By as (a & b & Eq & I). assert (In Execs ops) as Ix by (rewrite Eq; apply in_or_app; auto).
  destruct (started_sandboxed ops s T L Wo E Ix) as (Sb & _).
  split; [exact Ix|]. split; [exact Sb|]. split; [exists a, b; auto|]. cbn in Sg. split; [apply Sg|]. split; [apply Sg|]. repeat split; assumption.
Qed.
End History.

(** ** Texts *)
Lemma last_not {A} (a b : list A) x y l : x <> y -> l ++ [x] = a ++ b ++ [y] -> False.
Proof. intros N E. rewrite app_assoc in E. apply app_inj_tail in E. destruct E. contradiction. Qed.

Lemma object_ends py t l : Json.value py t (Json.JObject l) -> exists s, t = s ++ lit "}".
Proof.
  intros V. inversion V; subst; try (exists (lit "{" ++ w); rewrite <- app_assoc; reflexivity);
    try (exists (lit "{" ++ s); rewrite <- app_assoc; reflexivity).
  match goal with H : Json.number _ _ |- _ => inversion H end.
Qed.

Lemma hint_not_object py x l : ~ Json.json_text py (x ++ lit "." ++ ["010"%char]) (Json.JObject l).
Proof.
  intros (w1 & t & w2 & E & _ & V & B). destruct (object_ends py t l V) as (s & ->).
  destruct w2 as [|y w2 _] using rev_ind.
  - rewrite app_nil_r in E. change (lit ".") with ["."%char] in E. change (lit "}") with ["}"%char] in E.
    rewrite !app_assoc in E. apply app_inj_tail in E. destruct E as [_ E]. discriminate.
  - change (lit ".") with ["."%char] in E. change (lit "}") with ["}"%char] in E.
    rewrite !app_assoc in E. apply app_inj_tail in E. destruct E as [E _].
    apply Forall_app in B. destruct B as [B _].
    destruct w2 as [|z w2 _] using rev_ind.
    + rewrite app_nil_r in E. apply app_inj_tail in E. destruct E as [_ E]. discriminate.
    + rewrite app_assoc in E. apply app_inj_tail in E. destruct E as [_ <-]. apply Forall_app in B. destruct B as [_ B].
      apply Forall_inv in B. cbn in B. intuition discriminate.
Qed.

Lemma errors_not_object run errs t py l : printed run (Errors errs) = Val t -> ~ Json.json_text py t (Json.JObject l).
Proof.
  cbn [printed]. unfold print_errors. destruct (through_dstr (errors_ops errs)) as [x|]; cbn [cbind]; [|discriminate].
  intros E. apply (f_equal (fun y => match y with Val z => z | UB => [] end)) in E. cbv beta iota in E. subst t.
  assert (lit " --help' for more information." = lit " --help' for more information" ++ lit ".") as -> by reflexivity.
  rewrite <- !app_assoc. intros J. revert J.
  match goal with |- Json.json_text _ (?a ++ ?b ++ ?d ++ ?e ++ _) _ -> _ => rewrite (app_assoc d e), (app_assoc b), (app_assoc a) end.
  apply hint_not_object.
Qed.

Lemma result_inj t r r' : Json.json_text false t (result_object r) -> t = print_result r' -> r = r'.
Proof.
  intros J ->. pose proof (JsonProofs.json_unique false _ _ _ J (OutputProofs.result_text false r')) as H.
  injection H as H1 H2 H3 H4 H5 H6 H7. destruct r, r'. cbn in *. congruence.
Qed.

Lemma text_not_result a t r : (forall c, a <> Run c) -> printed (fun _ => init_result) a = Val t -> ~ Json.json_text false t (result_object r).
Proof.
  intros N E J. destruct a as [| |errs|c].
  - assert (exists s, print_usage = Val (lit "Usage: " ++ s)) as (s & U) by (eexists; vm_compute; reflexivity).
    cbn [printed] in E. rewrite U in E. injection E as <-. exact (OutputProofs.usage_not_json false _ _ J).
  - cbn [printed] in E. injection E as <-. exact (OutputProofs.version_not_json false _ _ J).
  - exact (errors_not_object _ _ _ _ _ E J).
  - exact (N c eq_refl).
Qed.

(** ** The judger *)
Section Judger.
Variables (W : world) (prog : str) (ws : list str) (h : history) (t : str) (st : Z).
Hypothesis C : Forall c_string ws.
Hypothesis J : judger W (prog :: ws) h (Prints t st).

(** A printed result: refused, or run. *)
Lemma result_cases r : Json.json_text false t (result_object r) ->
  st = 0 /\ exists es strays c, reads judger_names (w_posix W) ws es strays /\ faultless es strays /\ configured_by es c /\
  ((h = NothingRun /\ exists code, r = mkResult 0 0 0 0 0 code 0 /\
      ((code = ROOT_REQUIRED /\ w_uid W <> 0) \/ (code = INVALID_CONFIG /\ w_uid W = 0 /\ ~ limits_accepted c))) \/
   (exists ops s, h = Ran c ops s /\ w_uid W = 0 /\ limits_accepted c /\ gexec W c (ginit W) ops = Some s /\
      ppc (g_t s) = PReturned (Val r) /\ undefined_in W c s = false)).
Proof.
  intros Jt. inversion J as [|a t' D N E| |c code D Rf|c ops s r' D Rf E R U|]; subst.
  - exfalso. exact (text_not_result a t r N E Jt).
  - split; [reflexivity|]. destruct (does_reads _ _ _ _ C D) as (es & strays & Rd & _).
    destruct (does_run _ _ _ _ _ C Rd c D) as (F & Cf & _). exists es, strays, c. split; [exact Rd|]. split; [exact F|]. split; [exact Cf|].
    left. split; [reflexivity|]. exists code. split; [|apply refusal_some; exact Rf].
    apply (result_inj _ _ _ Jt). reflexivity.
  - split; [reflexivity|]. destruct (does_reads _ _ _ _ C D) as (es & strays & Rd & _).
    destruct (does_run _ _ _ _ _ C Rd c D) as (F & Cf & _). exists es, strays, c. split; [exact Rd|]. split; [exact F|]. split; [exact Cf|].
    right. exists ops, s. destruct (refusal_none _ _ Rf) as (U0 & L). pose proof (result_inj _ _ _ Jt eq_refl) as ->.
    repeat split; try assumption; apply L.
Qed.
End Judger.

Section Claims.
Variables (W : world) (prog : str) (ws : list str).
Hypothesis C : Forall c_string ws.

Theorem c63_verdict h t st r : world_ok W -> measurable W h ->
  judger W (prog :: ws) h (Prints t st) -> Json.json_text false t (result_object r) -> error r = 0 ->
  exists es strays c ops s o,
    reads judger_names (w_posix W) ws es strays /\ faultless es strays /\ configured_by es c /\
    h = Ran c ops s /\ w_uid W = 0 /\ limits_accepted c /\ happened W c ops o /\
    verdict_table (max_cpu_time c) (max_real_time c) (max_memory c) o (cpu_time r) (real_time r) (memory r) (verdict r) /\
    match o with Exited n => signal r = 0 /\ exit_code r = n | Killed sg _ => signal r = sg /\ exit_code r = 0 | Stopped _ => True end.
Proof.
  intros Wo Me J Jt Z. destruct (result_cases W prog ws h t st C J r Jt) as (_ & es & strays & c & Rd & F & Cf & K).
  destruct K as [(_ & code & -> & K)|(ops & s & -> & U0 & L & E & R & U)].
  - exfalso. cbn in Z. subst code. destruct K as [(K & _)|(K & _)]; discriminate.
  - destruct (ran_verdict W c ops s r L Wo Me U E R Z) as (o & H & _ & T & S).
    exists es, strays, c, ops, s, o. repeat (split; [assumption|]). split; [reflexivity|]. repeat (split; [assumption|]). exact S.
Qed.

Theorem c63_success h t st r : world_ok W -> measurable W h ->
  judger W (prog :: ws) h (Prints t st) -> Json.json_text false t (result_object r) -> error r = 0 -> verdict r = 0 ->
  exists es strays c ops s,
    reads judger_names (w_posix W) ws es strays /\ faultless es strays /\ configured_by es c /\
    h = Ran c ops s /\ w_uid W = 0 /\ limits_accepted c /\
    sandboxed W c /\ by_the_program ops (Sys (Exit 0)) /\ exit_code r = 0 /\ signal r = 0 /\ within_limits c r.
Proof.
  intros Wo Me J Jt Z V. destruct (result_cases W prog ws h t st C J r Jt) as (_ & es & strays & c & Rd & F & Cf & K).
  destruct K as [(_ & code & -> & K)|(ops & s & -> & U0 & L & E & R & U)].
  - exfalso. cbn in Z. subst code. destruct K as [(K & _)|(K & _)]; discriminate.
  - destruct (ran_success W c ops s r (configured_typed _ _ Cf) L Wo Me U E R Z V) as (_ & H).
    exists es, strays, c, ops, s. repeat (split; [assumption|]). split; [reflexivity|]. repeat (split; [assumption|]). exact H.
Qed.

(** Whenever the process becomes the program, whatever happens before or afterwards. *)
Theorem c63_sandboxed c ops s out : world_ok W -> judger W (prog :: ws) (Ran c ops s) out -> In Execs ops ->
  exists es strays, reads judger_names (w_posix W) ws es strays /\ faultless es strays /\ configured_by es c /\
    w_uid W = 0 /\ limits_accepted c /\ sandboxed W c.
Proof.
  intros Wo J I.
  assert (does (w_posix W) (prog :: ws) (Val (Run c)) /\ refusal W c = None /\ gexec W c (ginit W) ops = Some s) as (D & Rf & E)
    by (inversion J; subst; auto).
  destruct (does_reads _ _ _ _ C D) as (es & strays & Rd & _).
  destruct (does_run _ _ _ _ _ C Rd c D) as (F & Cf & _). destruct (refusal_none _ _ Rf) as (U0 & L).
  exists es, strays. repeat (split; [assumption|]).
  apply (started_sandboxed W c ops s (configured_typed _ _ Cf) L Wo E I).
Qed.

(** A program that was not started is never reported as successful... *)
Theorem c63_not_started h t st r : world_ok W -> measurable W h ->
  judger W (prog :: ws) h (Prints t st) -> Json.json_text false t (result_object r) ->
  ~ program_started h -> ~ (error r = 0 /\ verdict r = 0).
Proof.
  intros Wo Me J Jt N (Z & V). destruct (c63_success h t st r Wo Me J Jt Z V) as (es & strays & c & ops & s & _ & _ & _ & -> & _ & _ & _ & (a & b & -> & I) & _).
  apply N. cbn. apply in_or_app. auto.
Qed.

(** ...but as a system error, if nobody interferes and the failure can be signalled. *)
Theorem c63_failed_set_up c ops s t st r : world_ok W -> measurable W (Ran c ops s) ->
  judger W (prog :: ws) (Ran c ops s) (Prints t st) -> Json.json_text false t (result_object r) -> error r = 0 ->
  ~ In Execs ops -> undisturbed ops ->
  max_cpu_time c <= 2147482647 -> ce_usr1_default (w_child W) = true -> SandboxSpec.log_fits (w_child W) c (w_k0 W) ->
  ~ SandboxSpec.whitelist_rule (seccomp_rule_name c) ->
  (forall k sc, set_up W c = CKilled 31 k -> In sc (ce_libc_calls (w_child W)) -> filters_action (k_filter k) sc <> ActKill) ->
  verdict r = 5 /\ signal r = 10.
Proof.
  intros Wo Me J Jt Z N (Nf & Nd & Ns) Cp Ud Lf Wl Lc.
  destruct (result_cases W prog ws _ t st C J r Jt) as (_ & es & strays & c' & Rd & F & Cf & K).
  destruct K as [(K & _)|(ops' & s' & K & U0 & L & E & R & U)]; [discriminate|]. injection K as <- <- <-.
  destruct (ran_verdict W c ops s r L Wo Me U E R Z) as (o & H & Wf & T & S).
  destruct (ChildClaims.c14_guarantee (w_child W) (w_log W) c (w_k0 W)) as [(p & a & v & k & X)|(k & X)]; try assumption.
  { split; [exact (configured_typed _ _ Cf)|]. split; [exact L|]. split; [exact Cp|apply Wo]. }
  - exfalso. assert (forall x, ~ by_the_program ops x) as Nb.
    { intros x (l1 & l2 & -> & I). apply N, in_or_app. auto. }
    fold (set_up W c) in X. destruct o as [n|sg core|sg]; cbn in H.
    + destruct H as [H|(k' & H)]; [exact (Nb _ H)|congruence].
    + destruct H as [H|[(k' & H)|[H|(_ & _ & H)]]]; [exact (Nb _ H)|congruence|exact (Nf _ _ H)|exact (Nd H)].
    + exact (Ns _ H).
  - fold (set_up W c) in X. assert (forall x, ~ by_the_program ops x) as Nb.
    { intros x (l1 & l2 & -> & I). apply N, in_or_app. auto. }
    destruct o as [n|sg core|sg]; cbn in H.
    + destruct H as [H|(k' & H)]; [exfalso; exact (Nb _ H)|congruence].
    + destruct H as [H|[(k' & H)|[H|(_ & _ & H)]]]; [exfalso; exact (Nb _ H)| |exfalso; exact (Nf _ _ H)|exfalso; exact (Nd H)].
      rewrite X in H. injection H as <- _. cbn in T, S. tauto.
    + exfalso. exact (Ns _ H).
Qed.

(** What is printed. *)
Theorem c63_output h t st es strays :
  Forall short ws -> reads judger_names (w_posix W) ws es strays -> (forall x, In (Letter x) es -> ordinary x) ->
  judger W (prog :: ws) h (Prints t st) ->
  (mentions es "help" -> h = NothingRun /\ t = help_text /\ st = 0) /\
  (~ mentions es "help" -> mentions es "version" -> h = NothingRun /\ t = lit "Version: 2.1.1" ++ newline /\ st = 0) /\
  (~ mentions es "help" -> ~ mentions es "version" -> ~ faultless es strays ->
     h = NothingRun /\ st = 1 /\ exists acc fs, occurs [] es acc fs /\ t = report (first_ten (all_faults acc fs strays))) /\
  (~ mentions es "help" -> ~ mentions es "version" -> faultless es strays ->
     st = 0 /\ exists c r, configured_by es c /\ (forall py, Json.json_text py t (result_object r)) /\
       ((h = NothingRun /\ r = mkResult 0 0 0 0 0 (if w_uid W =? 0 then INVALID_CONFIG else ROOT_REQUIRED) 0 /\ (w_uid W <> 0 \/ ~ limits_accepted c)) \/
        (w_uid W = 0 /\ limits_accepted c /\ exists ops s, h = Ran c ops s))).
Proof.
  intros Sh Rd Or J.
  assert (exists a, does (w_posix W) (prog :: ws) (Val a)) as (a0 & D0) by (inversion J; eauto).
  pose proof (is_harmless _ _ _ _ _ C Rd _ D0) as H. 
  split; [|split; [|split]].
  - intros X. pose proof (does_help _ prog ws es strays C Rd H X) as D.
    inversion J as [|a t' D' N E| |c code D' Rf|c ops s r' D' Rf E R U|]; subst; pose proof (does_unique _ _ _ _ D D') as Q; try discriminate Q.
    injection Q as <-. split; [reflexivity|]. split; [|reflexivity].
    assert (print_usage = Val help_text) as Y by (vm_compute; reflexivity). cbn [printed] in E. rewrite Y in E. injection E as <-. reflexivity.
  - intros X Y. pose proof (does_version _ prog ws es strays C Rd H X Y) as D.
    inversion J as [|a t' D' N E| |c code D' Rf|c ops s r' D' Rf E R U|]; subst; pose proof (does_unique _ _ _ _ D D') as Q; try discriminate Q.
    injection Q as <-. split; [reflexivity|]. split; [|reflexivity]. cbn [printed] in E. injection E as <-. reflexivity.
  - intros X Y F. destruct (occurs_exists _ _ _ _ Rd H) as (acc & fs & O).
    destruct (good_occurs es acc fs (reads_good _ _ _ _ Rd) H O) as [Wt _].
    assert (all_faults acc fs strays <> []) as Nf by (intros Z; apply F, (faultless_iff es acc fs strays Wt O); exact Z).
    destruct (error_report (fun _ => init_result) (w_posix W) prog ws es strays acc fs C Sh Rd H O X Y Nf Or) as (a & D & Ex & Pr).
    inversion J as [|a' t' D' N E| |c code D' Rf|c ops s r' D' Rf E R U|]; subst; pose proof (does_unique _ _ _ _ D D') as Q.
    + injection Q as <-. split; [reflexivity|]. split; [exact Ex|]. exists acc, fs. split; [exact O|]. congruence.
    + injection Q as ->. discriminate Ex.
    + injection Q as ->. discriminate Ex.
  - intros X Y F. inversion J as [|a' t' D' N E| |c code D' Rf|c ops s r' D' Rf E R U|]; subst.
    + exfalso. pose proof (does_only _ prog ws es strays C Rd a' D') as K. destruct a' as [| |errs|c]; try tauto.
      * destruct (does_errors _ prog ws es strays C Rd errs D') as (K' & _). contradiction.
      * exact (N c eq_refl).
    + split; [reflexivity|]. destruct (does_run _ _ _ _ _ C Rd c D') as (_ & Cf & _).
      exists c, (mkResult 0 0 0 0 0 code 0). split; [exact Cf|]. split; [intros py; apply OutputProofs.result_text|].
      left. split; [reflexivity|]. destruct (refusal_some _ _ _ Rf) as [(-> & U)|(-> & U & L)].
      * apply Z.eqb_neq in U as U'. rewrite U'. auto.
      * rewrite U, Z.eqb_refl. auto.
    + split; [reflexivity|]. destruct (does_run _ _ _ _ _ C Rd c D') as (_ & Cf & _).
      exists c, r'. split; [exact Cf|]. split; [intros py; apply OutputProofs.result_text|].
      right. destruct (refusal_none _ _ Rf). repeat split; eauto; apply H1.
Qed.
End Claims.

(** ** Something always happens *)
Definition no_failure (h : history) : Prop := match h with NothingRun => True | Ran _ ops _ => ~ In (Sys ParentFail) ops end.

Lemma some_history W c : config_typed c -> limits_accepted c -> world_ok W -> w_autoreap W = false ->
  exists ops s, gexec W c (ginit W) ops = Some s /\ ~ In (Sys ParentFail) ops /\
    (undefined_in W c s = true \/ exists r, ppc (g_t s) = PReturned (Val r)).
Proof.
  intros T L (_ & F) Ar.
  set (pre := if limited_time (params W c) then [Sys Parent; Sys Parent; Sys Parent; Sys Parent] else [Sys Parent; Sys Parent]).
  assert (exists t, gexec W c (ginit W) pre = Some (mkG t false) /\ ppc t = PWait (w_wall W) /\ proc_st t = Running) as (t & E & Pc & Pr).
  { unfold pre, ginit. destruct (limited_time (params W c)) eqn:Lt; cbn; rewrite Lt; eexists; split; try reflexivity; split; reflexivity. }
  assert (~ In (Sys ParentFail) pre) as Np by (unfold pre; destruct (limited_time (params W c)); cbn; intuition discriminate).
  set (ru := mkRu (mkTv 0 0) (mkTv 0 0) 0).
  assert (forall fin o gp, gexec W c (mkG t false) fin = Some (mkG (terminate (params W c) t o) gp) -> ~ In (Sys ParentFail) fin ->
    exists ops s, gexec W c (ginit W) ops = Some s /\ ~ In (Sys ParentFail) ops /\
    (undefined_in W c s = true \/ exists r, ppc (g_t s) = PReturned (Val r))) as K.
  { intros fin o gp G Nf. exists (pre ++ fin ++ [Sys (Wait ru); Sys Parent; Sys Parent]). 
    assert (exists u r, gexec W c (mkG (terminate (params W c) t o) gp) [Sys (Wait ru); Sys Parent; Sys Parent] = Some (mkG u gp) /\ ppc u = PReturned r) as (u & r & Gu & Ru).
    { unfold terminate. cbn [params p_autoreap]. rewrite Ar.
      assert (forall s (_ : outcome), possible W c s (Wait ru) = true /\ possible W c s Parent = true) as Po by (intros s' _; unfold possible; destruct (g_program s'); auto).
      cbn [gexec gstep]. rewrite (proj1 (Po _ o)). cbn [g_t step]. unfold parent_wait at 1. cbn [set_proc ppc proc_st]. rewrite Pc. cbn [option_map g_program].
      rewrite (proj2 (Po _ o)). cbn [g_t step]. unfold parent_step at 1. cbn [ppc set_proc set_ppc option_map g_program].
      rewrite (proj2 (Po _ o)). cbn [g_t step]. unfold parent_step at 1. cbn [ppc set_proc set_ppc option_map g_program].
      eexists _, _. split; [reflexivity|]. reflexivity. }
    exists (mkG u gp). split; [rewrite gexec_app, E, gexec_app, G; exact Gu|]. split.
    - rewrite !in_app_iff. cbn. intuition discriminate.
    - destruct r as [r|]; [right; exists r; exact Ru|left]. unfold undefined_in. cbn [g_t]. rewrite Ru. apply orb_true_r. }
  destruct (set_up W c) as [p a v k|sg k|n k|] eqn:S.
  - apply (K [Execs; Sys (Exit 0)] (Exited 0) true); [|cbn; intuition discriminate]. cbn. rewrite Pr, S. cbn. rewrite Pr. reflexivity.
  - pose proof (killed_by _ _ _ _ _ _ T L F S) as B. apply (K [Sys (Die sg false)] (Killed sg false) false); [|cbn; intuition discriminate].
    cbn. unfold possible. cbn [g_program]. rewrite S, Z.eqb_refl. cbn. unfold alive. rewrite Pr. destruct B as [->|[->| ->]]; reflexivity.
  - pose proof (exits_1 _ _ _ _ _ _ T L F S) as ->. apply (K [Sys (Exit 1)] (Exited 1) false); [|cbn; intuition discriminate].
    cbn. unfold possible. cbn [g_program]. rewrite S. cbn. rewrite Pr. reflexivity.
  - exists pre, (mkG t false). split; [exact E|]. split; [exact Np|]. left. unfold undefined_in. rewrite S. cbn [g_t]. rewrite Pr.
    destruct (ubs t); reflexivity.
Qed.

Theorem c63_total W prog ws es strays : Forall c_string ws -> world_ok W -> w_autoreap W = false ->
  reads judger_names (w_posix W) ws es strays -> harmless es -> exists h out, judger W (prog :: ws) h out /\ no_failure h.
Proof.
  intros C Wo Ar Rd H.
  destruct (does_cases (w_posix W) prog ws es strays C Rd H) as (a & D & _).
  destruct a as [a|]; [|exists NothingRun, Undefined; split; [apply judger_parse_ub; exact D|exact I]].
  assert ((forall c, a <> Run c) -> exists h out, judger W (prog :: ws) h out /\ no_failure h) as K.
  { intros N. destruct (printed (fun _ => init_result) a) as [t|] eqn:E.
    - exists NothingRun, (Prints t (exit_status a)). split; [apply judger_text; assumption|exact I].
    - exists NothingRun, Undefined. split; [apply judger_text_ub with a; assumption|exact I]. }
  destruct a as [| |errs|c]; try (apply K; discriminate). clear K.
  destruct (refusal W c) as [code|] eqn:Rf.
  - eexists _, _. split; [apply judger_refused; eassumption|exact I].
  - destruct (does_run _ _ _ _ _ C Rd c D) as (_ & Cf & _). destruct (refusal_none _ _ Rf) as (_ & L).
    destruct (some_history W c (configured_typed _ _ Cf) L Wo Ar) as (ops & s & E & Nf & K).
    destruct (undefined_in W c s) eqn:U.
    + exists (Ran c ops s), Undefined. split; [apply judger_ran_ub; assumption|exact Nf].
    + destruct K as [K|(r & R)]; [discriminate|]. eexists (Ran c ops s), _. split; [eapply judger_ran; eassumption|exact Nf].
Qed.
