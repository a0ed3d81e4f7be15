(** From a call of a binding to the verdict it returns. *)
From Coq Require Import ZArith Bool List Ascii String Lia.
From Verif.Base Require Import CInt CStr.
From Verif.Model Require Import Config Runner Child Argtable Main Messages.
From Verif.Model Require Import Timeout Judger Python PythonDecode NodeBinding Callers.
From Verif.Spec Require Import Verdict RunSpec TimeoutSpec JudgerSpec CallerSpec.
From Verif.Spec Require Import CmdLine Invocation OutputSpec PythonSpec NodeSpec.
From Verif.Spec Require Json.
From Verif.Proofs Require Import RunnerProofs MainProofs InvocationClaims CommandClaims JudgerClaims.
From Verif.Proofs Require PythonProofs PythonClaims PythonOutcome NodeProofs NodeClaims NodeOutput.
Import ListNotations.
Open Scope list_scope.
Open Scope Z_scope.

Section Judged.
Variables (W : world) (prog : str) (ws : list str) (c : config).
Hypothesis C : Forall c_string ws.
Hypothesis D : does (w_posix W) (prog :: ws) (Val (Run c)).

Lemma run_typed : config_typed c.
Proof.
  destruct (does_reads _ _ _ _ C D) as (es & strays & Rd & _).
  destruct (does_run _ _ _ _ _ C Rd c D) as (F & Cf & _). exact (configured_typed _ _ Cf).
Qed.

(** What is printed is a result that reports truly. *)
Lemma judged_reports h t st : world_ok W -> measurable W h -> judger W (prog :: ws) h (Prints t st) ->
  exists r, t = print_result r /\ reports W c h r.
Proof.
  intros Wo Me J. inversion J as [|a t' D' N E| |c' code D' Rf|c' ops s r D' Rf E R U|]; subst;
    pose proof (does_unique _ _ _ _ D D') as Q; injection Q as <-.
  - exfalso. exact (N c eq_refl).
  - eexists. split; [reflexivity|]. left. split; [reflexivity|]. destruct (refusal_some _ _ _ Rf) as [(-> & U)|(-> & U & L)].
    + split; [|left; exact U]. rewrite (proj2 (Z.eqb_neq _ _) U). reflexivity.
    + split; [|right; exact L]. rewrite U. reflexivity.
  - exists r. split; [reflexivity|]. right. destruct (refusal_none _ _ Rf) as (U0 & L). exists ops, s.
    split; [reflexivity|]. split; [exact U0|]. split; [exact L|]. split.
    + intros Z. destruct (ran_verdict W c ops s r L Wo Me U E R Z) as (o & H & _ & T & S). exists o. auto.
    + intros Z V. destruct (ran_success W c ops s r run_typed L Wo Me U E R Z V) as (_ & A & B & _ & _ & X). auto.
Qed.

(** Whatever is run is this configuration, in its sandbox. *)
Lemma judged_ran c' ops s out : world_ok W -> judger W (prog :: ws) (Ran c' ops s) out ->
  c' = c /\ w_uid W = 0 /\ limits_accepted c /\ (In Execs ops -> sandboxed W c).
Proof.
  intros Wo J.
  assert (does (w_posix W) (prog :: ws) (Val (Run c')) /\ refusal W c' = None /\ gexec W c' (ginit W) ops = Some s) as (D' & Rf & E)
    by (inversion J; subst; auto).
  pose proof (does_unique _ _ _ _ D D') as Q; injection Q as <-. destruct (refusal_none _ _ Rf) as (U0 & L).
  split; [reflexivity|]. split; [exact U0|]. split; [exact L|]. intro Ix.
  apply (started_sandboxed W c ops s run_typed L Wo E Ix).
Qed.

(** Something happens. *)
Lemma judged_total : world_ok W -> w_autoreap W = false -> exists h out, judger W (prog :: ws) h out /\ no_failure h.
Proof.
  intros Wo Ar. destruct (refusal W c) as [code|] eqn:Rf.
  - eexists _, _. split; [apply judger_refused; eassumption|exact I].
  - destruct (refusal_none _ _ Rf) as (_ & L).
    destruct (some_history W c run_typed L Wo Ar) as (ops & s & E & Nf & K).
    destruct (undefined_in W c s) eqn:U.
    + exists (Ran c ops s), Undefined. split; [apply judger_ran_ub; assumption|exact Nf].
    + destruct K as [K|(r & R)]; [discriminate|]. eexists (Ran c ops s), _. split; [eapply judger_ran; eassumption|exact Nf].
Qed.
End Judged.

(** ** Python *)
Section Python.
Variables (W : world) (vars : locals) (p : py_call).
Hypothesis P : passes vars p.

Lemma python_words argv : command vars = Some argv -> exists prog ws, argv = prog :: ws /\ Forall c_string ws.
Proof.
  intros E. apply (PythonClaims.py_started vars p P) in E. destruct E as [Cl ->].
  eexists _, _. split; [reflexivity|]. exact (proj2 (PythonClaims.words_clean p) Cl).
Qed.

Lemma python_reports own err h o : valid p -> world_ok W -> measurable W h -> python_calls W own err vars h o ->
  exists c, asks_for p c /\
  ((err = [] /\ Json.blank own /\ exists r, o = Returns (result_object r) /\ reports W c h r) \/
   ((err <> [] \/ ~ Json.blank own) /\ o = Raises)).
Proof.
  intros V Wo Me Cl. destruct (PythonClaims.py_valid (w_posix W) vars p P V) as (argv & c & E & D & A). exists c. split; [exact A|].
  destruct (python_words argv E) as (prog & ws & -> & Cw).
  destruct Cl as [X|argv' h t st o E' J _ Dc]; [congruence|]. rewrite E in E'. injection E' as <-.
  destruct (judged_reports W prog ws c Cw D h t st Wo Me J) as (r & -> & R).
  apply PythonOutcome.decodes_result in Dc. destruct Dc as [(E1 & E2 & ->)|X]; [left|right; exact X].
  split; [exact E1|]. split; [exact E2|]. exists r. auto.
Qed.

Lemma python_only argv c ops s out : world_ok W -> command vars = Some argv -> judger W argv (Ran c ops s) out ->
  valid p /\ asks_for p c /\ w_uid W = 0 /\ limits_accepted c /\ (In Execs ops -> sandboxed W c).
Proof.
  intros Wo E J.
  assert (does (w_posix W) argv (Val (Run c))) as D by (inversion J; subst; auto).
  destruct (PythonClaims.py_only (w_posix W) vars p P argv c E D) as (V & A).
  destruct (python_words argv E) as (prog & ws & -> & Cw).
  destruct (judged_ran W prog ws c Cw D c ops s out Wo J) as (_ & U & L & S). auto.
Qed.

Lemma python_total : valid p -> world_ok W -> w_autoreap W = false ->
  exists argv h out, command vars = Some argv /\ judger W argv h out /\ no_failure h.
Proof.
  intros V Wo Ar. destruct (PythonClaims.py_valid (w_posix W) vars p P V) as (argv & c & E & D & A).
  destruct (python_words argv E) as (prog & ws & -> & Cw).
  destruct (judged_total W prog ws c Cw D Wo Ar) as (h & out & J & N). exists (prog :: ws), h, out. auto.
Qed.
End Python.

(** ** Node *)
Section Node.
Variables (W : world) (obj : string -> jsval) (p : node_call).
Hypothesis O : object_of obj p.
Hypothesis E : env_with_args obj.
Hypothesis P : plain_call p.

Lemma node_reports own h o : acceptable p -> nul_free own -> world_ok W -> measurable W h -> node_calls W own obj h o ->
  exists c r, requests p c /\ reports W c h r /\
  ((Z.of_nat (List.length (own ++ print_result r)) < 2 ^ 31)%Z -> o = Some (NodeReturns own (result_object r))).
Proof.
  intros A N Wo Me Cl. destruct (NodeClaims.node_faithful (w_posix W) obj p O E P A) as (cmd & argv & c & Ec & S & H & D & R).
  destruct Cl as [X|X|cmd' argv' h t st o' Ec' S' H' J _ Dc]; [congruence|congruence|].
  assert (cmd' = cmd) as -> by congruence. assert (argv' = argv) as -> by congruence.
  destruct (NodeProofs.node_started obj p O E P) as (cmd' & X1 & X2). assert (cmd' = cmd) as -> by congruence.
  rewrite S in X2. injection X2 as ->.
  destruct (judged_reports W _ _ c (NodeProofs.k_c p P) D h t st Wo Me J) as (r & -> & Rp).
  exists c, r. split; [exact R|]. split; [exact Rp|]. intro L. f_equal. apply (NodeOutput.node_result_clean own r o' N L), Dc.
Qed.

Lemma node_only cmd argv c ops s out : world_ok W -> node_command obj = NVal cmd -> shell cmd = Some [argv] ->
  judger W argv (Ran c ops s) out ->
  acceptable p /\ requests p c /\ w_uid W = 0 /\ limits_accepted c /\ (In Execs ops -> sandboxed W c).
Proof.
  intros Wo Ec S J.
  assert (does (w_posix W) argv (Val (Run c))) as D by (inversion J; subst; auto).
  destruct (NodeClaims.node_runs_only (w_posix W) obj p O E P cmd argv c Ec S D) as (V & A).
  destruct (NodeProofs.node_started obj p O E P) as (cmd' & X1 & X2). assert (cmd' = cmd) as -> by congruence.
  rewrite S in X2. injection X2 as ->.
  destruct (judged_ran W _ _ c (NodeProofs.k_c p P) D c ops s out Wo J) as (_ & U & L & Sb). auto.
Qed.

Lemma node_total : acceptable p -> world_ok W -> w_autoreap W = false ->
  exists cmd argv h out, node_command obj = NVal cmd /\ shell cmd = Some [argv] /\ judger W argv h out /\ no_failure h.
Proof.
  intros A Wo Ar. destruct (NodeClaims.node_faithful (w_posix W) obj p O E P A) as (cmd & argv & c & Ec & S & H & D & R).
  destruct (NodeProofs.node_started obj p O E P) as (cmd' & X1 & X2). assert (cmd' = cmd) as -> by congruence.
  rewrite S in X2. injection X2 as ->.
  destruct (judged_total W _ _ c (NodeProofs.k_c p P) D Wo Ar) as (h & out & J & N). eexists _, _, h, out. eauto.
Qed.
End Node.
