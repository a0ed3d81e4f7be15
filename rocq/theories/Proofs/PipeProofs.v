(** C89: who holds the caller's pipe. *)
From Coq Require Import ZArith Bool List Ascii String Lia.
From Verif.Base Require Import CInt CStr.
From Verif.Model Require Import Config Runner Child Argtable Main Messages.
From Verif.Model Require Import Timeout Judger Python PythonDecode NodeBinding Killed Pipes.
From Verif.Model Require Processes.
From Verif.Spec Require Import Verdict RunSpec TimeoutSpec JudgerSpec SandboxSpec PipeSpec.
From Verif.Spec Require Import CmdLine Invocation PythonSpec NodeSpec.
From Verif.Spec Require ProcSpec.
From Verif.Proofs Require Import MainProofs JudgerProofs JudgerClaims CallerProofs KilledProofs.
From Verif.Proofs Require ChildClaims ChildProofs NodeProofs.
Import ListNotations.
Open Scope nat_scope.
Open Scope list_scope.

Lemma fd_get_set x : forall n d m, fd_get (fd_set x n d) m = if Nat.eqb m n then d else fd_get x m.
Proof.
  intros n. revert x. induction n as [|n IH]; intros x d m.
  - destruct x, m; try reflexivity. destruct m; reflexivity.
  - destruct x as [|y x]; destruct m as [|m]; try reflexivity.
    + cbn [fd_set]. change (fd_get (None :: fd_set [] n d) (S m)) with (fd_get (fd_set [] n d) m). rewrite IH.
      cbn [Nat.eqb]. destruct (Nat.eqb m n); [reflexivity|]. destruct m; reflexivity.
    + change (fd_get (fd_set (y :: x) (S n) d) (S m)) with (fd_get (fd_set x n d) m). rewrite IH. reflexivity.
Qed.

Section Tree.
Variable pipe : ofile -> Prop.
Variable c : config.

Lemma set_end t p x : at_end pipe t -> (forall n o, fd_get x n = Some o -> ~ pipe o) -> at_end pipe (set t p (Some x)).
Proof. intros H X q y n o. unfold set. destruct (Nat.eqb q p); [intros E; injection E as <-; apply X|apply H]. Qed.

Lemma step_end t e t' : tstep c t e t' -> at_end pipe t -> (forall p n o, e = Opens p n o -> ~ pipe o) -> at_end pipe t'.
Proof.
  intros T H N. destruct T as [p x n o E|p x old new o E G|p x n E|p x q call E F L|p x y E K|p x E].
  - apply set_end; [exact H|]. intros m d. rewrite fd_get_set. destruct (Nat.eqb m n); [intros Q; injection Q as <-; apply (N p n); reflexivity|apply (H p x m d E)].
  - apply set_end; [exact H|]. intros m d. rewrite fd_get_set. destruct (Nat.eqb m new); [intros Q; injection Q as <-; apply (H p x old o E G)|apply (H p x m d E)].
  - apply set_end; [exact H|]. intros m d. rewrite fd_get_set. destruct (Nat.eqb m n); [discriminate|apply (H p x m d E)].
  - apply set_end; [exact H|]. intros m d. apply (H p x m d E).
  - apply set_end; [exact H|]. intros m d Q. apply (H p x m d E), K, Q.
  - intros q y n o. unfold set. destruct (Nat.eqb q p); [discriminate|apply H].
Qed.

Lemma runs_end t es t' : truns c t es t' -> at_end pipe t -> opens_elsewhere pipe es -> at_end pipe t'.
Proof.
  intros T. induction T as [|t e t1 es t2 T1 _ IH]; intros H N; [exact H|]. apply IH.
  - apply (step_end t e t1 T1 H). intros p n o ->. apply (N p n o). left. reflexivity.
  - intros p n o X. apply (N p n o). right. exact X.
Qed.

(** Without calls that make processes there is only the program. *)
Lemma step_single t e t' : (forall call, Processes.fork_call c call = false) -> tstep c t e t' -> (forall p, p <> 0 -> t p = None) -> forall p, p <> 0 -> t' p = None.
Proof.
  intros N T H p P.
  assert (forall q y, t q <> None -> set t q y p = None) as K.
  { intros q y Q. unfold set. destruct (Nat.eqb_spec p q) as [->|_]; [|apply H, P]. destruct (Q (H q P)). }
  destruct T as [q x n o E|q x old new o E G|q x n E|q x r call E F L|q x y E Kp|q x E]; apply K; congruence.
Qed.
Lemma runs_single t es t' : (forall call, Processes.fork_call c call = false) -> truns c t es t' -> (forall p, p <> 0 -> t p = None) -> forall p, p <> 0 -> t' p = None.
Proof. intros N T. induction T as [|t e t1 es t2 T1 _ IH]; intros H; [exact H|]. apply IH. exact (step_single t e t1 N T1 H). Qed.

Lemma set_none t p q x : t q = None -> q <> p -> set t p x q = None.
Proof. intros H D. unfold set. destruct (Nat.eqb_spec q p); [contradiction|exact H]. Qed.
Lemma runs_gone t es t' : truns c t es t' -> t 0 = None -> (forall q call, ~ In (ForksBy q 0 call) es) -> t' 0 = None.
Proof.
  intros T. induction T as [|t e t1 es t2 T1 _ IH]; intros H N; [exact H|].
  apply IH; [|intros q call X; apply (N q call); right; exact X].
  destruct T1 as [q x n o E|q x old new o E G|q x n E|q x r call E F L|q x y E Kp|q x E]; apply set_none; try exact H; intros <-; try congruence.
  apply (N q call). left. reflexivity.
Qed.
Lemma runs_ended t es t' : truns c t es t' -> In (Ends 0) es -> (forall q call, ~ In (ForksBy q 0 call) es) -> t' 0 = None.
Proof.
  intros T. induction T as [|t e t1 es t2 T1 T2 IH]; intros H N; [destruct H|].
  assert (forall q call, ~ In (ForksBy q 0 call) es) as N' by (intros q call X; apply (N q call); right; exact X).
  destruct H as [->|H]; [|exact (IH H N')]. apply (runs_gone t1 es t2 T2); [|exact N']. inversion T1; subst. reflexivity.
Qed.
End Tree.

Lemma fd_descriptor k n : fd_get (k_fds k) n = descriptor k n. Proof. reflexivity. Qed.

(** ** The program at execve *)
Section Start.
Variable pipe : ofile -> Prop.
Variables (env : child_env) (log : option stream) (c : config) (k0 : kstate) (path : str) (a v : list cell) (k : kstate).
Hypothesis R : ready c k0.
Hypothesis E : child_process env log c k0 = CExec path a v k.

Lemma start_free ns : pipe_at pipe ns k0 ->
  elsewhere pipe (input_path c) -> elsewhere pipe (output_path c) -> elsewhere pipe (error_path c) ->
  (forall n, In n ns -> (n = 0 /\ input_path c <> None) \/ (n = 1 /\ output_path c <> None) \/ (n = 2 /\ error_path c <> None)) ->
  forall n o, descriptor k n = Some o -> ~ pipe o.
Proof.
  intros P Ei Eo Ee Ns n o D Q.
  destruct (ChildClaims.c18_standard_streams _ _ _ _ _ _ _ _ R E) as (S0 & S1 & S2 & _).
  destruct (ChildClaims.c19_inherited _ _ _ _ _ _ _ _ R E) as (_ & In0).
  destruct (In0 n o D) as [D0|(_ & [(X & _)|([X|X] & _)])]; [|exact (Ei _ o X eq_refl Q)|exact (Eo _ o X eq_refl Q)|exact (Ee _ o X eq_refl Q)].
  pose proof (P n o D0 Q) as I. destruct R as (_ & _ & _ & _ & _ & Fr). pose proof (Fr n o D0) as Lt.
  destruct (Ns n I) as [(-> & X)|[(-> & X)|(-> & X)]].
  - destruct (input_path c) as [q|] eqn:Eq; [|contradiction]. destruct (S0 q eq_refl) as (o' & D' & _ & _ & G). rewrite D in D'. injection D' as <-. lia.
  - destruct (output_path c) as [q|] eqn:Eq; [|contradiction]. destruct (S1 q eq_refl) as (o' & D' & _ & _ & G). rewrite D in D'. injection D' as <-. lia.
  - destruct (error_path c) as [q|] eqn:Eq; [|contradiction]. destruct (S2 q eq_refl) as (o' & D' & _ & _ & G). rewrite D in D'. injection D' as <-. lia.
Qed.
End Start.

Section Left.
Variables (W : world) (prog : str) (ws : list str) (c : config).
Hypothesis C : Forall c_string ws.
Hypothesis D : does (w_posix W) (prog :: ws) (Val (Run c)).
Hypothesis Wo : world_ok W.
Variable pipe : ofile -> Prop.

Lemma exec_ready p a v k : limits_accepted c -> set_up W c = CExec p a v k -> ready c (w_k0 W).
Proof.
  intros L S. destruct Wo as (_ & F). pose proof (exec_cpu _ _ _ _ _ _ _ _ F S) as Cpu. pose proof (run_typed W prog ws c C D) as T.
  repeat split; assumption || apply T || apply L || apply F.
Qed.

Lemma left_free s ns : limits_accepted c -> (alive (g_t s) = true -> g_program s = true) ->
  pipe_at pipe ns (w_k0 W) -> elsewhere pipe (input_path c) -> elsewhere pipe (output_path c) -> elsewhere pipe (error_path c) ->
  (forall n, In n ns -> (n = 0 /\ input_path c <> None) \/ (n = 1 /\ output_path c <> None) \/ (n = 2 /\ error_path c <> None)) ->
  forall es t, left_over W c s es t -> opens_elsewhere pipe es -> at_end pipe t.
Proof.
  intros L A P Ei Eo Ee Ns es t Lo Op.
  destruct Lo as [G Al|x G Al|path a v k es t G S T Al].
  - intros p x n o X. discriminate X.
  - rewrite (A Al) in G. discriminate G.
  - apply (runs_end pipe c _ es t T); [|exact Op]. intros p x n o X. unfold only in X. destruct (Nat.eqb p 0); [injection X as <-|discriminate X].
    intros Q. exact (start_free pipe _ _ c _ path a v k (exec_ready _ _ _ _ L S) S ns P Ei Eo Ee Ns n o Q).
Qed.

(** A rule without calls that make processes: nobody is left. *)
Lemma left_single ops s out nm : judger W (prog :: ws) (Ran c ops s) out -> alive (g_t s) = false ->
  seccomp_rule_name c = Some nm -> In nm [lit "c_cpp"; lit "c_cpp_file_io"] ->
  forall es t, left_over W c s es t -> forall p, t p = None.
Proof.
  intros J A Sr I es t Lo. destruct Lo as [G Al|x G Al|path a v k es t G S T Al]; [reflexivity|congruence|].
  assert (forall call, Processes.fork_call c call = false) as N.
  { intros call. unfold Processes.fork_call, Processes.let_through. rewrite Sr.
    destruct (existsb (String.eqb call) Processes.fork_calls) eqn:X; [|reflexivity]. apply existsb_exists in X. destruct X as (y & Iy & Q). apply String.eqb_eq in Q. subst y.
    destruct I as [<-|[<-|[]]]; cbn in Iy; repeat (destruct Iy as [<-|Iy]; [vm_compute; reflexivity|]); destruct Iy. }
  destruct (Al A) as (Ie & Nf). intros p. destruct (Nat.eq_dec p 0) as [->|P].
  - exact (runs_ended c _ es t T Ie Nf).
  - apply (runs_single c _ es t N T); [|exact P]. intros q Q. unfold only. destruct (Nat.eqb_spec q 0); [contradiction|reflexivity].
Qed.
End Left.

(** ** The bindings *)
Lemma python_ends W vars p : passes vars p -> forall pipe argv c ops s out, world_ok W -> command vars = Some argv ->
  judger W argv (Ran c ops s) out -> (alive (g_t s) = true -> g_program s = true) ->
  pipe_at pipe [1; 2] (w_k0 W) ->
  elsewhere pipe (Some (y_input_path p)) -> elsewhere pipe (Some (y_output_path p)) -> elsewhere pipe (Some (y_error_path p)) ->
  forall es t, left_over W c s es t -> opens_elsewhere pipe es -> at_end pipe t.
Proof.
  intros P pipe argv c ops s out Wo E J A Pa Ei Eo Ee.
  destruct (python_only W vars p P argv c ops s out Wo E J) as (V & (_ & _ & _ & _ & _ & _ & _ & _ & Xi & Xo & Xe & _) & _ & L & _).
  destruct (python_words vars p P argv E) as (prog & ws & -> & Cw).
  assert (does (w_posix W) (prog :: ws) (Val (Run c))) as D by (inversion J; subst; auto).
  rewrite <- Xi in Ei. rewrite <- Xo in Eo. rewrite <- Xe in Ee.
  apply (left_free W prog ws c Cw D Wo pipe s [1; 2] L A Pa Ei Eo Ee).
  intros n [<-|[<-|[]]]; [right; left|right; right]; split; congruence.
Qed.

Lemma node_ends W obj p : object_of obj p -> env_with_args obj -> plain_call p ->
  forall pipe cmd argv c ops s out, world_ok W -> node_command obj = NVal cmd -> shell cmd = Some [argv] ->
  judger W argv (Ran c ops s) out -> (alive (g_t s) = true -> g_program s = true) ->
  pipe_at pipe [1] (w_k0 W) ->
  elsewhere pipe (Some (or_else (k_input_path p) (lit "/dev/stdin"))) -> elsewhere pipe (Some (or_else (k_output_path p) (lit "/dev/stdout"))) ->
  elsewhere pipe (Some (or_else (k_error_path p) (lit "/dev/stderr"))) ->
  forall es t, left_over W c s es t -> opens_elsewhere pipe es -> at_end pipe t.
Proof.
  intros O E P pipe cmd argv c ops s out Wo Ec S J A Pa Ei Eo Ee.
  destruct (node_only W obj p O E P cmd argv c ops s out Wo Ec S J) as (V & (_ & _ & _ & _ & _ & _ & _ & _ & Xi & Xo & Xe & _) & _ & L & _).
  destruct (NodeProofs.node_started obj p O E P) as (cmd' & X1 & X2). assert (cmd' = cmd) as -> by congruence.
  rewrite S in X2. injection X2 as ->.
  match type of J with judger _ (?x :: ?y) _ _ => assert (does (w_posix W) (x :: y) (Val (Run c))) as D by (inversion J; subst; auto) end.
  rewrite <- Xi in Ei. rewrite <- Xo in Eo. rewrite <- Xe in Ee.
  apply (left_free W _ _ c (NodeProofs.k_c p P) D Wo pipe s [1] L A Pa Ei Eo Ee).
  intros n [<-|[]]; right; left; split; congruence.
Qed.

Lemma python_single W vars p : passes vars p -> forall argv c ops s out nm, world_ok W -> command vars = Some argv ->
  judger W argv (Ran c ops s) out -> alive (g_t s) = false -> y_seccomp_rule_name p = Some nm -> In nm [lit "c_cpp"; lit "c_cpp_file_io"] ->
  forall es t, left_over W c s es t -> forall q, t q = None.
Proof.
  intros P argv c ops s out nm Wo E J A Sr I.
  destruct (python_only W vars p P argv c ops s out Wo E J) as (V & (_ & _ & _ & _ & _ & _ & _ & _ & _ & _ & _ & _ & _ & _ & Xr & _) & _).
  destruct (python_words vars p P argv E) as (prog & ws & -> & Cw).
  assert (does (w_posix W) (prog :: ws) (Val (Run c))) as D by (inversion J; subst; auto).
  apply (left_single W prog ws c ops s out nm J A); [|exact I].
  rewrite Xr, Sr. destruct I as [<-|[<-|[]]]; reflexivity.
Qed.
Lemma node_single W obj p : object_of obj p -> env_with_args obj -> plain_call p ->
  forall cmd argv c ops s out nm, world_ok W -> node_command obj = NVal cmd -> shell cmd = Some [argv] ->
  judger W argv (Ran c ops s) out -> alive (g_t s) = false -> k_seccomp_rule_name p = Some nm -> In nm [lit "c_cpp"; lit "c_cpp_file_io"] ->
  forall es t, left_over W c s es t -> forall q, t q = None.
Proof.
  intros O E P cmd argv c ops s out nm Wo Ec S J A Sr I.
  destruct (node_only W obj p O E P cmd argv c ops s out Wo Ec S J) as (V & (_ & _ & _ & _ & _ & _ & _ & _ & _ & _ & _ & _ & _ & _ & Xr & _) & _).
  destruct (NodeProofs.node_started obj p O E P) as (cmd' & X1 & X2). assert (cmd' = cmd) as -> by congruence.
  rewrite S in X2. injection X2 as ->.
  match type of J with judger _ (?x :: ?y) _ _ => apply (left_single W x y c ops s out nm J A); [rewrite Xr; exact Sr|exact I] end.
Qed.

(** The judger was killed in the state [s], now it is [s']. *)
Lemma python_killed_ends W vars p : passes vars p -> forall pipe argv c ops s later w s', world_ok W -> command vars = Some argv ->
  killed W argv (Ran c ops s) later w -> alone W c s later = Some s' -> (alive (g_t s') = true -> g_program s' = true) ->
  pipe_at pipe [1; 2] (w_k0 W) ->
  elsewhere pipe (Some (y_input_path p)) -> elsewhere pipe (Some (y_output_path p)) -> elsewhere pipe (Some (y_error_path p)) ->
  forall es t, left_over W c s' es t -> opens_elsewhere pipe es -> at_end pipe t.
Proof.
  intros P pipe argv c ops s later w s' Wo E K _ A Pa Ei Eo Ee.
  destruct (python_killed_confined W vars p P argv c ops s later w Wo E K) as (V & (_ & _ & _ & _ & _ & _ & _ & _ & Xi & Xo & Xe & _) & _ & L & _).
  destruct (python_words vars p P argv E) as (prog & ws & -> & Cw).
  assert (does (w_posix W) (prog :: ws) (Val (Run c))) as D.
  { inversion K as [|? ? ? ? Y1 Y2 Y3 Y4 Y5|? t st ? rest ? J X B]; subst; [auto|]. inversion J; subst; auto. }
  rewrite <- Xi in Ei. rewrite <- Xo in Eo. rewrite <- Xe in Ee.
  apply (left_free W prog ws c Cw D Wo pipe s' [1; 2] L A Pa Ei Eo Ee).
  intros n [<-|[<-|[]]]; [right; left|right; right]; split; congruence.
Qed.
