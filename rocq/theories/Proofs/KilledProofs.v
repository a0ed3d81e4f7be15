(** The judger is killed. *)
From Coq Require Import ZArith Bool List Ascii String Lia.
From Verif.Base Require Import CInt CStr.
From Verif.Model Require Import Config Runner Child Argtable Main Messages.
From Verif.Model Require Import Timeout Judger Python PythonDecode NodeBinding Killed.
From Verif.Spec Require Import Verdict RunSpec TimeoutSpec JudgerSpec CallerSpec.
From Verif.Spec Require Import CmdLine Invocation OutputSpec PythonSpec NodeSpec.
From Verif.Spec Require Json Utf8.
From Verif.Proofs Require Import MainProofs CommandClaims JudgerProofs JudgerClaims CallerProofs.
From Verif.Proofs Require JsonProofs OutputProofs PythonClaims PythonOutcome NodeProofs NodeClaims NodeOutput ChildClaims.
Import ListNotations.
Open Scope list_scope.

(** ** A report that is cut is no JSON *)
Section Cut.
Import JsonProofs.

Definition object_open (st : list frame) : Prop := exists f, In f st /\ match f with FKey _ | FObj _ _ => True | FArr _ => False end.

Lemma open_under f st : object_open (f :: st) -> match f with FArr _ => object_open st | _ => True end.
Proof. intros (g & [<-|H] & G); destruct f; try exact Logic.I; [destruct G|]. exists g. auto. Qed.
Lemma open_over f st : object_open st -> object_open (f :: st).
Proof. intros (g & H & G). exists g. split; [right; exact H|exact G]. Qed.
Lemma open_key ms st : object_open (FKey ms :: st). Proof. exists (FKey ms). split; [left; reflexivity|exact Logic.I]. Qed.
Lemma open_obj ms k st : object_open (FObj ms k :: st). Proof. exists (FObj ms k). split; [left; reflexivity|exact Logic.I]. Qed.
Lemma open_arr l l' st : object_open (FArr l :: st) -> object_open (FArr l' :: st).
Proof. intros O. apply open_over. exact (open_under _ _ O). Qed.

Lemma after_open v st c m st' : c <> "}"%char -> after_value v st c = Some (m, st') -> object_open st -> object_open st'.
Proof.
  intros N E O. unfold after_value in E. destruct (blankb c); [injection E as _ <-; exact O|].
  destruct st as [|[l|ms|ms k] st]; try discriminate E.
  - destruct (aeqb c ","); [injection E as _ <-; exact (open_arr _ _ _ O)|].
    destruct (aeqb c "]"); [injection E as _ <-; exact (open_under _ _ O)|discriminate E].
  - destruct (aeqb c ","); [injection E as _ <-; apply open_key|].
    destruct (aeqb c "}") eqn:B; [apply aeqb_eq in B; contradiction|discriminate E].
Qed.

Lemma step_open m st c m' st' : c <> "}"%char -> step (m, st) c = Some (m', st') -> object_open st -> object_open st'.
Proof.
  intros N E O. destruct m as [cl|cl|acc e| |acc|v]; cbn [step] in E.
  - destruct (blankb c); [injection E as _ <-; exact O|].
    destruct (aeqb c "["); [injection E as _ <-; apply open_over, O|].
    destruct (aeqb c "{"); [injection E as _ <-; apply open_over, O|].
    destruct (aeqb c """"); [injection E as _ <-; exact O|].
    destruct (atomb c); [injection E as _ <-; exact O|].
    destruct (cl && aeqb c "]"); [|discriminate E].
    destruct st as [|[[|]|d|d k] st]; try discriminate E. injection E as _ <-. exact (open_under _ _ O).
  - destruct (blankb c); [injection E as _ <-; exact O|].
    destruct (aeqb c """"); [injection E as _ <-; exact O|].
    destruct (aeqb c "}") eqn:B; [apply aeqb_eq in B; contradiction|]. rewrite andb_false_r in E. discriminate E.
  - destruct e as [| |h].
    + destruct (aeqb c """"); [|destruct (aeqb c "\"); [injection E as _ <-; exact O|]; destruct (_ <? _)%nat; [discriminate E|injection E as _ <-; exact O]].
      unfold close_string in E. destruct st as [|[d|d|d k] st]; injection E as _ <-; try exact O. apply open_obj.
    + destruct (aeqb c "u"); [injection E as _ <-; exact O|]. destruct (find _ _) as [[]|]; [injection E as _ <-; exact O|discriminate E].
    + destruct (hexval c); [|discriminate E]. destruct (_ =? _)%nat; injection E as _ <-; exact O.
  - destruct (blankb c); [injection E as _ <-; exact O|]. destruct (aeqb c ":"); [injection E as _ <-; exact O|discriminate E].
  - destruct (atomb c); [injection E as _ <-; exact O|]. exact (after_open _ _ _ _ _ N E O).
  - exact (after_open _ _ _ _ _ N E O).
Qed.

Lemma run_open s : forall m st, ~ In "}"%char s -> object_open st -> finish (run (m, st) s) = None.
Proof.
  induction s as [|c s IH]; intros m st N O; cbn [run].
  - destruct st as [|f st]; [destruct O as (g & [] & _)|]. cbn. destruct m; reflexivity.
  - destruct (step (m, st) c) as [[m' st']|] eqn:E; [|reflexivity]. apply IH.
    + intros H. apply N. right. exact H.
    + apply (step_open m st c m' st'); [intros ->; apply N; left; reflexivity|exact E|exact O].
Qed.

(** Whatever stands before it. *)
Lemma cut_run x p : (p = [] -> False) -> (exists q, "{"%char :: "010"%char :: q = p \/ p = ["{"%char]) -> ~ In "}"%char p ->
  finish (run x p) = None.
Proof.
  intros _ (q & Q) N. destruct x as [m st].
  assert (forall s, ~ In "}"%char s -> finish (run (m, st) ("{"%char :: s)) = None \/ exists acc e, m = Str acc e) as K.
  { intros s Ns. destruct m as [cl|cl|acc e| |acc|v]; [left|left|right; eauto|left|left|left]; cbn.
    - apply run_open; [exact Ns|apply open_key].
    - rewrite andb_false_r. reflexivity.
    - reflexivity.
    - destruct st as [|[d|d|d k] st]; reflexivity.
    - destruct st as [|[d|d|d k] st]; reflexivity. }
  destruct Q as [<- | ->].
  - destruct (K ("010"%char :: q)) as [F|(acc & e & ->)]; [intros H; apply N; right; exact H|exact F|].
    destruct e as [| |h]; reflexivity.
  - destruct (K []) as [F|(acc & e & ->)]; [intros []|exact F|]. destruct e as [| |h]; reflexivity.
Qed.
End Cut.

Lemma report_braces r : exists q, print_result r = "{"%char :: "010"%char :: q ++ ["}"%char] /\ ~ In "}"%char q.
Proof.
  eexists (json_field "cpu_time" (cpu_time r) ++ (lit "," ++ ["010"%char]) ++ json_field "real_time" (real_time r) ++ (lit "," ++ ["010"%char]) ++
    json_field "memory" (memory r) ++ (lit "," ++ ["010"%char]) ++ json_field "signal" (signal r) ++ (lit "," ++ ["010"%char]) ++
    json_field "exit_code" (exit_code r) ++ (lit "," ++ ["010"%char]) ++ json_field "error" (error r) ++ (lit "," ++ ["010"%char]) ++
    json_field "result" (verdict r) ++ ["010"%char]).
  split; [unfold print_result; rewrite <- !app_assoc; reflexivity|].
  assert (forall z, ~ In "}"%char (fmt_d z)) as D.
  { intros z H. pose proof (NodeProofs.fmt_d_nice z) as F. unfold NodeProofs.nice in F. rewrite Forall_forall in F. specialize (F _ H). vm_compute in F. discriminate F. }
  unfold json_field. rewrite <- !app_assoc. intros H.
  repeat (apply in_app_iff in H; destruct H as [H|H]; [first [exact (D _ H)|cbn in H; repeat (destruct H as [H|H]; [discriminate H|]); exact H]|]).
  cbn in H. repeat (destruct H as [H|H]; [discriminate H|]). exact H.
Qed.

Lemma cut_not_json py own p rest r v : print_result r = p ++ rest -> p <> [] -> rest <> [] -> ~ Json.json_text py (own ++ p) v.
Proof.
  intros E N Nr J. destruct (report_braces r) as (q & Q & Nq).
  assert (exists b, "{"%char :: "010"%char :: q = p ++ b) as (b & B).
  { destruct rest as [|x rest] using rev_ind; [contradiction|]. clear IHrest. exists rest.
    rewrite Q in E. change ("{"%char :: "010"%char :: q ++ ["}"%char]) with (("{"%char :: "010"%char :: q) ++ ["}"%char]) in E.
    rewrite app_assoc in E. apply app_inj_tail in E. exact (proj1 E). }
  assert (~ In "}"%char p) as Np.
  { intros H. assert (In "}"%char ("{"%char :: "010"%char :: q)) as X by (rewrite B; apply in_app_iff; left; exact H).
    destruct X as [X|[X|X]]; [discriminate X|discriminate X|exact (Nq X)]. }
  apply JsonProofs.json_read in J. rewrite JsonProofs.run_app in J.
  destruct (JsonProofs.run JsonProofs.start own) as [y|]; [|discriminate J]. rewrite cut_run in J; [discriminate J|exact N| |exact Np].
  destruct p as [|a [|b' p]]; [contradiction| |]; [injection B as <- _; exists []; right; reflexivity|].
  injection B as <- <- _. exists p. left. reflexivity.
Qed.

(** ** Histories *)
Section History.
Variables (W : world) (c : config).

Lemma execs_set_up ops : forall s s', gexec W c s ops = Some s' -> In Execs ops -> exists p a v k, set_up W c = CExec p a v k.
Proof.
  induction ops as [|g ops IH]; intros s s' E H; [destruct H|]. cbn [gexec] in E.
  destruct (gstep W c s g) as [s1|] eqn:G; [|discriminate E]. destruct H as [->|H]; [|exact (IH _ _ E H)].
  cbn in G. destruct (g_program s); [discriminate G|]. destruct (proc_st (g_t s)); try discriminate G.
  destruct (set_up W c); try discriminate G. eauto.
Qed.

Lemma exec_sandboxed p a v k : config_typed c -> limits_accepted c -> world_ok W -> set_up W c = CExec p a v k -> sandboxed W c.
Proof.
  intros T L (_ & F) S.
  pose proof (exec_cpu _ _ _ _ _ _ _ _ F S) as Cpu. assert (SandboxSpec.ready c (w_k0 W)) as R by (repeat split; assumption || apply T || apply L || apply F).
  destruct (ChildClaims.c13_complete_sandbox _ _ _ _ _ _ _ _ R S) as (-> & -> & -> & Sc). exists k. auto.
Qed.

Lemma alone_gexec s later s' : alone W c s later = Some s' -> gexec W c (orphaned s) later = Some s'.
Proof. unfold alone. destruct (forallb goes_on later); [auto|discriminate]. Qed.

(** Waiting does nothing. *)
Lemma wait_alone s d : (0 < d)%Z -> alone W c s [Sys (Tick d)] =
  Some (mkG (set_clocks (set_kpc (g_t s) KNone) (mono (g_t s) + d) (wall (g_t s) + d)) (g_program s)).
Proof.
  intros D. unfold alone. cbn [forallb goes_on andb gexec gstep].
  assert (possible W c (orphaned s) (Tick d) = true) as -> by (unfold possible; destruct (g_program (orphaned s)); reflexivity).
  cbn [step orphaned g_t set_kpc kpc]. rewrite (proj2 (Z.ltb_lt 0 d) D). reflexivity.
Qed.
End History.

(** ** The report *)
Section Killed.
Variables (W : world) (prog : str) (ws : list str) (c : config).
Hypothesis C : Forall c_string ws.
Hypothesis D : does (w_posix W) (prog :: ws) (Val (Run c)).
Hypothesis Wo : world_ok W.

(** Nothing, a part, or all of a report that is true. *)
Lemma killed_cases h later p : measurable W h -> killed W (prog :: ws) h later p ->
  p = [] \/ exists r rest, print_result r = p ++ rest /\ p <> [] /\ reports W c h r.
Proof.
  intros Me K. destruct K as [|c' ops s later|h t st p rest later J E A]; [left; reflexivity|left; reflexivity|].
  destruct p as [|x p]; [left; reflexivity|right]. destruct (judged_reports W prog ws c C D h t st Wo Me J) as (r & -> & R).
  exists r, rest. split; [exact E|]. split; [discriminate|exact R].
Qed.

Lemma killed_ran c' ops s later p : killed W (prog :: ws) (Ran c' ops s) later p ->
  c' = c /\ w_uid W = 0%Z /\ limits_accepted c /\ gexec W c (ginit W) ops = Some s /\ exists s', alone W c s later = Some s'.
Proof.
  intros K.
  assert (does (w_posix W) (prog :: ws) (Val (Run c')) /\ refusal W c' = None /\ gexec W c' (ginit W) ops = Some s /\ afterwards W (Ran c' ops s) later) as (D' & Rf & E & A).
  { inversion K as [|? ? ? ? X1 X2 X3 X4 X5|? t st ? rest ? J X A]; subst; [auto|]. inversion J; subst; auto. }
  pose proof (does_unique _ _ _ _ D D') as Q; injection Q as <-. destruct (refusal_none _ _ Rf) as (U0 & L).
  split; [reflexivity|]. split; [exact U0|]. split; [exact L|]. split; [exact E|]. cbn in A.
  destruct (alone W c s later) as [s'|]; [eauto|contradiction].
Qed.

Lemma killed_confined c' ops s later p : killed W (prog :: ws) (Ran c' ops s) later p ->
  In Execs (ops ++ later) -> c' = c /\ w_uid W = 0%Z /\ limits_accepted c /\ sandboxed W c.
Proof.
  intros K H. destruct (killed_ran _ _ _ _ _ K) as (-> & U & L & E & s' & A). split; [reflexivity|]. split; [exact U|]. split; [exact L|].
  assert (exists p a v k, set_up W c = CExec p a v k) as (p' & a & v & k & S).
  { apply in_app_iff in H. destruct H as [H|H]; [exact (execs_set_up W c _ _ _ E H)|exact (execs_set_up W c _ _ _ (alone_gexec _ _ _ _ _ A) H)]. }
  exact (exec_sandboxed W c p' a v k (run_typed W prog ws c C D) L Wo S).
Qed.
End Killed.

(** ** Python *)
Section Python.
Variables (W : world) (vars : locals) (p : py_call).
Hypothesis P : passes vars p.

Lemma blank_not_json py own v : Json.blank own -> ~ Json.json_text py own v.
Proof.
  intros B J. apply JsonProofs.json_read in J. unfold JsonProofs.start in J.
  rewrite (JsonProofs.blank_expect own false [] B) in J. discriminate J.
Qed.

Lemma python_killed_reports own err h later written o : valid p -> world_ok W -> measurable W h ->
  python_killed W own err vars h later written o ->
  exists c, asks_for p c /\
  ((written = [] /\ forall v, o = Returns v <-> err = [] /\ Utf8.utf8 own /\ Json.json_text true own v) \/
   (exists r rest, written <> [] /\ print_result r = written ++ rest /\ reports W c h r /\
      if match rest with [] => true | _ => false end
      then (err = [] /\ Json.blank own /\ o = Returns (result_object r)) \/ ((err <> [] \/ ~ Json.blank own) /\ o = Raises)
      else o = Raises)).
Proof.
  intros V Wo Me Cl. destruct (PythonClaims.py_valid (w_posix W) vars p P V) as (argv & c & E & D & A). exists c. split; [exact A|].
  destruct (python_words vars p P argv E) as (prog & ws & -> & Cw).
  destruct Cl as [argv' h later w o E' K _ Dc]. rewrite E in E'. injection E' as <-.
  destruct (killed_cases W prog ws c Cw D Wo h later w Me K) as [->|(r & rest & Er & N & R)].
  - left. split; [reflexivity|]. rewrite app_nil_r in Dc. intros v.
    split; [intros ->; inversion Dc; auto|]. intros (-> & U & J). apply (PythonOutcome.decodes_unique own [] o (Returns v) Dc). apply decodes_value; auto.
  - right. exists r, rest. split; [exact N|]. split; [exact Er|]. split; [exact R|]. destruct rest as [|x rest].
    + rewrite app_nil_r in Er. subst w. apply PythonOutcome.decodes_result, Dc.
    + destruct Dc as [X|v _ _ J|X Y]; [reflexivity| |reflexivity]. exfalso.
      exact (cut_not_json true own w (x :: rest) r v Er N ltac:(discriminate) J).
Qed.

(** A result that is returned is true, or comes from the program. *)
Lemma python_killed_returns own err h later written v : valid p -> world_ok W -> measurable W h ->
  python_killed W own err vars h later written (Returns v) ->
  exists c, asks_for p c /\ ((exists r, v = result_object r /\ reports W c h r) \/ (written = [] /\ ~ Json.blank own /\ Json.json_text true own v)).
Proof.
  intros V Wo Me K. destruct (python_killed_reports _ _ _ _ _ _ V Wo Me K) as (c & A & [(-> & X)|(r & rest & N & E & R & X)]); exists c; split; try exact A.
  - right. apply X in K || idtac. destruct (proj1 (X v) eq_refl) as (_ & _ & J). split; [reflexivity|]. split; [|exact J].
    intros B. exact (blank_not_json true own v B J).
  - left. exists r. split; [|exact R]. destruct rest; [|discriminate X]. destruct X as [(_ & _ & X)|(_ & X)]; [injection X as ->; reflexivity|discriminate X].
Qed.

Lemma python_killed_confined argv c ops s later w : world_ok W -> command vars = Some argv -> killed W argv (Ran c ops s) later w ->
  valid p /\ asks_for p c /\ w_uid W = 0%Z /\ limits_accepted c /\ (In Execs (ops ++ later) -> sandboxed W c).
Proof.
  intros Wo E K.
  assert (does (w_posix W) argv (Val (Run c))) as D.
  { inversion K as [|? ? ? ? X1 X2 X3 X4 X5|? t st ? rest ? J X A]; subst; [auto|]. inversion J; subst; auto. }
  destruct (PythonClaims.py_only (w_posix W) vars p P argv c E D) as (V & A).
  destruct (python_words vars p P argv E) as (prog & ws & -> & Cw).
  destruct (killed_ran W prog ws c D c ops s later w K) as (_ & U & L & _).
  split; [exact V|]. split; [exact A|]. split; [exact U|]. split; [exact L|]. intros H.
  exact (proj2 (proj2 (proj2 (killed_confined W prog ws c Cw D Wo c ops s later w K H)))).
Qed.
End Python.

(** ** Node *)
Section Node.
Variables (W : world) (obj : string -> jsval) (p : node_call).
Hypothesis O : object_of obj p.
Hypothesis E : env_with_args obj.
Hypothesis P : plain_call p.

Lemma written_clean r w rest : print_result r = w ++ rest -> w <> [] -> exists t, w = "{"%char :: t /\ ~ In "{"%char t /\ nul_free w.
Proof.
  intros Er N. destruct (NodeOutput.report_quiet r) as (t & Et & Q). rewrite Et in Er.
  destruct w as [|a w]; [contradiction|]. injection Er as <- Er. exists w. split; [reflexivity|].
  assert (forall x, In x w -> x = "010"%char \/ In x t) as K.
  { intros x H. assert (In x ("010"%char :: t)) as X by (rewrite Er; apply in_app_iff; left; exact H). destruct X as [X|X]; auto. }
  split; [intros H; destruct (K _ H) as [X|X]; [discriminate X|exact (NodeOutput.quiet_brace t Q X)]|].
  intros [H|H]; [discriminate H|]. destruct (K _ H) as [X|X]; [discriminate X|exact (NodeOutput.quiet_nul t Q X)].
Qed.

Lemma node_killed_reports own h later written o : acceptable p -> nul_free own -> world_ok W -> measurable W h ->
  (Z.of_nat (List.length (own ++ written)) < 2 ^ 31)%Z ->
  node_killed W own obj h later written o ->
  exists c, requests p c /\
  ((written = [] /\ node_decodes own o) \/
   (exists r rest, written <> [] /\ print_result r = written ++ rest /\ reports W c h r /\
      o = if match rest with [] => true | _ => false end then NodeReturns own (result_object r) else NodeAborts own)).
Proof.
  intros A N Wo Me L Cl. destruct (NodeClaims.node_faithful (w_posix W) obj p O E P A) as (cmd & argv & c & Ec & S & H & D & R).
  exists c. split; [exact R|].
  destruct Cl as [cmd' argv' h later w o Ec' S' H' K _ Dc].
  assert (cmd' = cmd) as -> by congruence. assert (argv' = argv) as -> by congruence.
  destruct (NodeProofs.node_started obj p O E P) as (cmd' & X1 & X2). assert (cmd' = cmd) as -> by congruence.
  rewrite S in X2. injection X2 as ->.
  destruct (killed_cases W _ _ c (NodeProofs.k_c p P) D Wo h later w Me K) as [->|(r & rest & Er & Nw & Rp)].
  - left. rewrite app_nil_r in Dc. auto.
  - right. exists r, rest. split; [exact Nw|]. split; [exact Er|]. split; [exact Rp|]. destruct rest as [|x rest].
    + rewrite app_nil_r in Er. subst w. apply (NodeOutput.node_result_clean own r o N L), Dc.
    + destruct (written_clean r w (x :: rest) Er Nw) as (t & Ew & Nt & Cw).
      assert (node_split (own ++ w) = Val (own, w)) as Sp.
      { rewrite Ew. apply NodeOutput.split_found; [|exact Nt|rewrite <- Ew; exact L]. rewrite <- Ew.
        apply NodeOutput.reads_clean, NodeOutput.nul_free_app. auto. }
      assert (forall v, ~ Json.json_text false w v) as Nj
        by (intros v; apply (cut_not_json false [] w (x :: rest) r v Er Nw); discriminate).
      destruct Dc as [sh tx v Y J|sh tx Y J|Y]; rewrite Sp in Y; [|injection Y as <- <-; reflexivity|discriminate Y].
      injection Y as <- <-. destruct (Nj v J).
Qed.

Lemma split_own own shown text : nul_free own -> (Z.of_nat (List.length own) < 2 ^ 31)%Z -> node_split own = Val (shown, text) -> own = shown ++ text.
Proof.
  intros N L. unfold node_split. rewrite (NodeOutput.reads_clean own N).
  destruct (_ <=? 0)%Z; [discriminate|]. destruct (_ <? 0)%Z; [discriminate|]. intros X. injection X as <- <-. symmetry. apply firstn_skipn.
Qed.

Lemma node_killed_returns own h later written shown v : acceptable p -> nul_free own -> world_ok W -> measurable W h ->
  (Z.of_nat (List.length (own ++ written)) < 2 ^ 31)%Z ->
  node_killed W own obj h later written (NodeReturns shown v) ->
  exists c, requests p c /\
  ((exists r, v = result_object r /\ shown = own /\ reports W c h r) \/
   (written = [] /\ exists text, own = shown ++ text /\ Json.json_text false text v)).
Proof.
  intros A N Wo Me L K. destruct (node_killed_reports _ _ _ _ _ A N Wo Me L K) as (c & R & [(-> & X)|(r & rest & Nw & Er & Rp & X)]);
    exists c; (split; [exact R|]).
  - right. split; [reflexivity|]. inversion X as [sh tx v' Y J| |]; subst. exists tx. split; [|exact J]. rewrite app_nil_r in L. exact (split_own own shown tx N L Y).
  - left. destruct rest; [|discriminate X]. injection X as -> ->. exists r. auto.
Qed.

Lemma node_killed_undefined own h later o : ~ In "{"%char own -> node_killed W own obj h later [] o -> o = NodeUndefined.
Proof.
  intros N K. inversion K as [cmd argv h' later' w o' _ _ _ _ _ Dc]; subst. rewrite app_nil_r in Dc. exact (proj1 (NodeOutput.node_no_brace own o N) Dc).
Qed.
End Node.

Lemma node_killed_confined W obj p : object_of obj p -> env_with_args obj -> plain_call p ->
  forall cmd argv c ops s later w, world_ok W -> node_command obj = NVal cmd -> shell cmd = Some [argv] -> killed W argv (Ran c ops s) later w ->
  acceptable p /\ requests p c /\ w_uid W = 0%Z /\ limits_accepted c /\ (In Execs (ops ++ later) -> sandboxed W c).
Proof.
  intros O E P cmd argv c ops s later w Wo Ec S K.
  assert (does (w_posix W) argv (Val (Run c))) as D.
  { inversion K as [|? ? ? ? X1 X2 X3 X4 X5|? t st ? rest ? J X A]; subst; [auto|]. inversion J; subst; auto. }
  destruct (NodeClaims.node_runs_only (w_posix W) obj p O E P cmd argv c Ec S D) as (A & R).
  destruct (NodeProofs.node_started obj p O E P) as (cmd' & X1 & X2). assert (cmd' = cmd) as -> by congruence.
  rewrite S in X2. injection X2 as ->.
  destruct (killed_ran W _ _ c D c ops s later w K) as (_ & U & L & _).
  split; [exact A|]. split; [exact R|]. split; [exact U|]. split; [exact L|]. intros H.
  exact (proj2 (proj2 (proj2 (killed_confined W _ _ c (NodeProofs.k_c p P) D Wo c ops s later w K H)))).
Qed.

(** ** Nobody is left to enforce the limit of real time *)
Lemma longer W argv c ops s p d : (0 < d)%Z -> killed W argv (Ran c ops s) [] p ->
  killed W argv (Ran c ops s) [Sys (Tick d)] p /\
  exists s', alone W c s [Sys (Tick d)] = Some s' /\ (mono (g_t s') = mono (g_t s) + d)%Z /\
    proc_st (g_t s') = proc_st (g_t s) /\ g_program s' = g_program s.
Proof.
  intros D K. assert (afterwards W (Ran c ops s) [Sys (Tick d)]) as A by (cbn [afterwards]; rewrite wait_alone; [discriminate|exact D]).
  split; [|eexists; split; [apply wait_alone, D|auto]].
  inversion K as [|? ? ? ? X1 X2 X3 X4 X5|? t st ? rest ? J X B]; subst; [apply killed_working; auto|eapply killed_reporting; eauto].
Qed.

Lemma no_more_kills W c later : forall s s', kpc (g_t s) = KNone -> kill_pending (g_t s) = false -> forallb goes_on later = true -> gexec W c s later = Some s' ->
  ~ In (Sys Deliver) later /\ kills (g_t s') = kills (g_t s).
Proof.
  induction later as [|g later IH]; intros s s' N Q F E; [injection E as <-; auto|]. cbn [forallb] in F. apply andb_true_iff in F. destruct F as (Fg & F).
  cbn [gexec] in E. destruct (gstep W c s g) as [s1|] eqn:G; [|discriminate E].
  assert (kpc (g_t s1) = KNone /\ kill_pending (g_t s1) = false /\ kills (g_t s1) = kills (g_t s) /\ g <> Sys Deliver) as (N1 & Q1 & K1 & X).
  { destruct s as [t b], t. cbn in N, Q. subst.
    destruct g as [o|sig core|]; [destruct o; try discriminate Fg| |]; cbn [gstep] in G;
      [destruct (possible _ _ _ _); [|discriminate G] .. | |]; cbn in G; rewrite ?andb_false_r in G.
    all: repeat match type of G with context [if ?x then _ else _] => destruct x | context [match ?x with _ => _ end] => destruct x end; try discriminate G.
    all: injection G as <-; cbn; repeat split; try reflexivity; discriminate. }
  destruct (IH s1 s' N1 Q1 F E) as (I1 & I2). split; [|congruence]. intros [H|H]; [contradiction|exact (I1 H)].
Qed.

Lemma alone_no_kill W c s later s' : alone W c s later = Some s' -> kill_pending (g_t s) = false ->
  ~ In (Sys Deliver) later /\ kills (g_t s') = kills (g_t s).
Proof.
  unfold alone. destruct (forallb goes_on later) eqn:F; [|discriminate]. intros E Q.
  exact (no_more_kills W c later (orphaned s) s' eq_refl Q F E).
Qed.

(** ** The caller of a judger that is killed while it reports *)
Lemma python_cut W vars own err h later written o r rest : python_killed W own err vars h later written o ->
  print_result r = written ++ rest -> written <> [] -> rest <> [] -> o = Raises.
Proof.
  intros K E N Nr. destruct K as [argv h later w o _ _ _ Dc]. destruct Dc as [X|v _ _ J|X Y]; [reflexivity| |reflexivity].
  destruct (cut_not_json true own w rest r v E N Nr J).
Qed.

Lemma node_cut W obj own h later written o r rest : node_killed W own obj h later written o -> nul_free own ->
  (Z.of_nat (List.length (own ++ written)) < 2 ^ 31)%Z ->
  print_result r = written ++ rest -> written <> [] -> rest <> [] -> o = NodeAborts own.
Proof.
  intros K N L E Nw Nr. destruct K as [cmd argv h later w o _ _ _ _ _ Dc]. destruct (written_clean r w rest E Nw) as (t & Ew & Nt & Cw).
  assert (node_split (own ++ w) = Val (own, w)) as Sp.
  { rewrite Ew. apply NodeOutput.split_found; [|exact Nt|rewrite <- Ew; exact L]. rewrite <- Ew.
    apply NodeOutput.reads_clean, NodeOutput.nul_free_app. auto. }
  assert (forall v, ~ Json.json_text false w v) as Nj by (intros v; exact (cut_not_json false [] w rest r v E Nw Nr)).
  destruct Dc as [sh tx v Y J|sh tx Y J|Y]; rewrite Sp in Y; [|injection Y as <- <-; reflexivity|discriminate Y].
  injection Y as <- <-. destruct (Nj v J).
Qed.

Lemma python_killed_blank W vars p : passes vars p -> forall own err h later written v, valid p -> world_ok W -> measurable W h -> Json.blank own ->
  python_killed W own err vars h later written (Returns v) ->
  exists c r, asks_for p c /\ v = result_object r /\ reports W c h r.
Proof.
  intros P own err h later written v V Wo Me B K.
  destruct (python_killed_returns W vars p P own err h later written v V Wo Me K) as (c & A & [(r & E & R)|(_ & Nb & _)]); [|contradiction].
  exists c, r. auto.
Qed.

(** ** What was under way goes on *)
Lemma delivered W c s : alive (g_t s) = true -> kill_pending (g_t s) = true -> w_autoreap W = false ->
  exists s', alone W c s [Sys Deliver] = Some s' /\ proc_st (g_t s') = Zombie (Killed 9 false).
Proof.
  intros A K R. unfold alone. cbn [forallb goes_on andb gexec gstep].
  assert (possible W c (orphaned s) Deliver = true) as -> by (unfold possible; destruct (g_program (orphaned s)); reflexivity).
  cbn [step params p_autoreap]. change (alive (g_t (orphaned s))) with (alive (g_t s)). change (kill_pending (g_t (orphaned s))) with (kill_pending (g_t s)).
  rewrite A, K. eexists. split; [reflexivity|]. cbn. rewrite R. reflexivity.
Qed.
Lemma starts_late W c s p a v k : g_program s = false -> proc_st (g_t s) = Running -> set_up W c = CExec p a v k ->
  exists s', alone W c s [Execs] = Some s' /\ g_program s' = true /\ proc_st (g_t s') = Running.
Proof.
  intros G R E. unfold alone. cbn [forallb goes_on andb gexec gstep orphaned g_program g_t set_kpc proc_st]. rewrite G, R, E.
  eexists. split; [reflexivity|]. split; [reflexivity|exact R].
Qed.
Lemma fails_late W c s n k : g_program s = false -> proc_st (g_t s) = Running -> (0 <= n <= 255)%Z -> set_up W c = CExit n k -> w_autoreap W = false ->
  exists s', alone W c s [Sys (Exit n)] = Some s' /\ proc_st (g_t s') = Zombie (Exited n).
Proof.
  intros G R B E A. unfold alone. cbn [forallb goes_on andb gexec gstep].
  assert (possible W c (orphaned s) (Exit n) = true) as -> by (unfold possible; cbn [orphaned g_program]; rewrite G, E; apply Z.eqb_refl).
  cbn [step orphaned g_t set_kpc proc_st]. rewrite R. rewrite (proj2 (Z.leb_le 0 n)) by lia. rewrite (proj2 (Z.leb_le n 255)) by lia.
  eexists. split; [reflexivity|]. cbn. rewrite A. reflexivity.
Qed.
