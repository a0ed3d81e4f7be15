(** What run() leaves behind. *)
From Coq Require Import ZArith Bool List Lia.
From Verif.Base Require Import CInt CStr.
From Verif.Model Require Import Config Runner.
From Verif.Spec Require Import Verdict RunSpec ResourceSpec.
Import ListNotations.
Open Scope list_scope.
Open Scope Z_scope.

Ltac run_cases H :=
  unfold run, error_exit in H;
  repeat match type of H with
  | context [if ?b then _ else _] => destruct b eqn:?
  | context [match ?x with Some _ => _ | None => _ end] => destruct x as [[st ru0]|] eqn:Ew
  end; try discriminate H.

Lemma log_tidy_intro path mid : (forall f, In f mid -> ~ on_log f) -> log_tidy path (EfLogOpen path :: mid ++ [EfLogClose]).
Proof. intros H. exists mid. split; [reflexivity|exact H]. Qed.

Theorem c69_log c e r ef : run c e = Returns r ef -> log_tidy (log_path c) ef.
Proof.
  intros H. run_cases H; injection H as <- <-; cbn [app];
    match goal with |- log_tidy ?p (_ :: ?l) =>
      let l' := eval cbn in (removelast l) in change (log_tidy p (EfLogOpen p :: l' ++ [EfLogClose])) end;
    apply log_tidy_intro; cbn; intros f I; repeat (destruct I as [<-|I]; [cbn; tauto|]); contradiction.
Qed.

Lemma not_stopped o sig : wf_outcome o -> (forall s, o <> Stopped s) -> 1 <= sig <= 64 -> wait_status o <> wait_status (Stopped sig).
Proof. intros W N S E. destruct o as [n|s co|s]; unfold wait_status, wf_outcome in *; [lia|destruct co; lia|exact (N s eq_refl)]. Qed.

Theorem c69_process c e r ef : env_ok e -> run c e = Returns (Val r) ef -> process_created e ef ->
  (process_reaped e ef <->
   error r = 0 /\ forall sig ru, 1 <= sig <= 64 -> e_wait4 e <> Some (wait_status (Stopped sig), ru)).
Proof.
  intros (_ & _ & W) H (F & P).
  assert (e_wait4 e = None \/ ~ In (EfWait (e_fork e)) ef -> ~ process_reaped e ef) as A.
  { intros [N|N] (I & o & ru & E & _); congruence. }
  run_cases H; injection H as Hr <-;
    try (exfalso; cbn in F; intuition discriminate);
    try (split; [intros X; exfalso; apply A in X; [contradiction|cbn; intuition (try discriminate; auto)]|
                 intros [X _]; subst r; cbn in X; discriminate X]);
    try (apply Z.ltb_lt in Heqb1; lia).
  all: destruct (W _ _ eq_refl) as ((o & Wo & ->) & _).
  all: assert (error r = 0) as Er by
      (unfold judge, cbind in Hr; repeat match type of Hr with context [match ?x with Val _ => _ | UB => _ end] => destruct x end; try discriminate Hr;
       repeat match type of Hr with context [if ?b then _ else _] => destruct b end; try discriminate Hr;
       injection Hr as <-; reflexivity).
  all: split.
  all: try (intros (_ & o' & ru & E & Wo' & N); split; [exact Er|]; intros sig ru' S X; try rewrite Ew in E; rewrite E in X; injection X as X _;
            exact (not_stopped o' sig Wo' N S X)).
  all: intros (_ & N); split; [cbn; intuition|]; exists o, ru0; split; [first [exact Ew|reflexivity]|]; split; [exact Wo|];
       intros sig ->; exact (N sig ru0 Wo ltac:(first [exact Ew|reflexivity])).
Qed.

Theorem c69_thread c e r ef : run c e = Returns (Val r) ef ->
  (thread_created ef <-> max_real_time c <> UNLIMITED /\ (error r = 0 \/ error r = WAIT_FAILED)) /\
  (thread_created ef -> (thread_cancelled ef <-> error r = 0)).
Proof.
  intros H.
  assert (forall l, In EfCancel l -> thread_cancelled l \/ True) by auto.
  assert (forall l, thread_cancelled l -> In EfCancel l) as TC.
  { intros l (a & pid & t & b & c0 & d & -> & _). rewrite !in_app_iff. cbn. tauto. }
  run_cases H; injection H as Hr <-;
    try (assert (error r = 0) as Er by
      (unfold judge, cbind in Hr; repeat match type of Hr with context [match ?x with Val _ => _ | UB => _ end] => destruct x end; try discriminate Hr;
       repeat match type of Hr with context [if ?b then _ else _] => destruct b end; try discriminate Hr;
       injection Hr as <-; reflexivity)).
  all: repeat match goal with
    | X : (_ && _) = true |- _ => apply andb_true_iff in X; destruct X
    | X : negb (max_real_time _ =? UNLIMITED) = true |- _ => apply negb_true_iff, Z.eqb_neq in X
    | X : negb (max_real_time _ =? UNLIMITED) = false |- _ => apply negb_false_iff, Z.eqb_eq in X end.
  all: cbn [app].
  all: try (subst r; cbn [error]).
  all: split.
  all: try (split; [intros (pid & t & I); cbn in I; intuition discriminate|]; unfold ROOT_REQUIRED, INVALID_CONFIG, FORK_FAILED, PTHREAD_FAILED, WAIT_FAILED in *; intros [X [Y|Y]]; try discriminate Y; contradiction).
  all: try (intros (pid & t & I); exfalso; cbn in I; intuition discriminate).
  all: try (split; [intros _; split; [assumption|auto]|intros _; do 2 eexists; cbn; intuition]).
  all: intros _; split; intros X.
  all: try (apply TC in X; exfalso; cbn in X; intuition discriminate).
  all: try discriminate X; try assumption.
  all: exists [EfLogOpen (log_path c); EfFork], (e_fork e), (max_real_time c), [], [], [EfLogClose];
       (split; [reflexivity|]); intros f I; cbn in I; intuition (subst; discriminate).
Qed.

(** Over any sequence of calls the log files stay balanced. *)
Lemma logs_open_app a b : logs_open (a ++ b) = logs_open a + logs_open b.
Proof. unfold logs_open. induction a as [|f a IH]; [reflexivity|]. cbn [app fold_right]. rewrite IH. destruct f; lia. Qed.

Lemma logs_open_none l : (forall f, In f l -> ~ on_log f) -> logs_open l = 0.
Proof.
  induction l as [|f l IH]; [reflexivity|]. intros H. cbn. unfold logs_open in IH. rewrite IH by (intros; apply H; right; assumption).
  specialize (H f (or_introl eq_refl)). destruct f; cbn in H; tauto || reflexivity.
Qed.

Theorem c69_history calls efs : Forall2 (fun ce ef => exists r, run (fst ce) (snd ce) = Returns r ef) calls efs ->
  logs_open (List.concat efs) = 0.
Proof.
  induction 1 as [|[c e] ef calls efs (r & H) _ IH]; [reflexivity|]. cbn [List.concat]. rewrite logs_open_app, IH.
  destruct (c69_log _ _ _ _ H) as (mid & -> & N). rewrite !logs_open_app, (logs_open_none mid N). reflexivity.
Qed.
