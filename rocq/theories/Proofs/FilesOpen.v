(** The descriptors of the program come from the judger or were opened for it. *)
From Coq Require Import ZArith Bool List String Lia.
From Verif.Base Require Import CInt CStr.
From Verif.Model Require Import Config Runner Seccomp Child.
From Verif.Spec Require Import SandboxSpec.
From Verif.Proofs Require Import ChildProofs.
Import ListNotations.
Open Scope list_scope.
Open Scope Z_scope.

Section Tracked.
Variable k0 : kstate.

Definition tracked (k : kstate) : Prop :=
  (forall n o, fd_get (k_fds k) n = Some o ->
     (exists m, fd_get (k_fds k0) m = Some o) \/ In (EvOpen (of_id o) (of_path o) (of_mode o)) (k_trace k)) /\
  (forall i p m, In (EvOpen i p m) (k_trace k) -> (k_next k0 <= i < k_next k)%nat) /\
  (forall i p m q n, In (EvOpen i p m) (k_trace k) -> In (EvOpen i q n) (k_trace k) -> p = q /\ m = n) /\
  (k_next k0 <= k_next k)%nat.
Definition tracked_end (e : child_end) : Prop := match e with CExec _ _ _ k => tracked k | _ => True end.
Definition keeps {A} (m : M A) : Prop := forall k, tracked k -> wp m (fun _ k' => tracked k') tracked_end k.

Lemma keeps_ret {A} (a : A) : keeps (ret a).
Proof. intros k T. exact T. Qed.
Lemma keeps_bind {A B} (m : M A) (f : A -> M B) : keeps m -> (forall a, keeps (f a)) -> keeps (bind m f).
Proof. intros Km Kf k T. apply wp_bind. apply (wp_conseq _ (fun _ k' => tracked k') _ tracked_end); [apply Km, T|intros a k' T'; apply Kf, T'|auto]. Qed.
Lemma keeps_get {B} (f : kstate -> M B) : (forall k, tracked k -> wp (f k) (fun _ k' => tracked k') tracked_end k) -> keeps (bind get f).
Proof. intros H k T. apply wp_bind. unfold wp at 1, get. apply H, T. Qed.
Lemma keeps_call env sc : keeps (call env sc).
Proof. intros k T. unfold wp, call. destruct (filters_action (k_filter k) sc); first [exact T|exact Logic.I]. Qed.
Lemma keeps_call_sure sc : keeps (call_sure sc).
Proof. intros k T. unfold wp, call_sure. destruct (filters_action (k_filter k) sc); first [exact T|exact Logic.I]. Qed.
Lemma keeps_emit ev : (forall i p m, ev <> EvOpen i p m) -> keeps (emit ev).
Proof.
  intros N k (T1 & T2 & T3 & T4). unfold wp, emit, tracked. cbn.
  assert (forall i p m, In (EvOpen i p m) (k_trace k ++ [ev]) -> In (EvOpen i p m) (k_trace k)) as Q.
  { intros i p m H. apply in_app_iff in H. destruct H as [H|[H|[]]]; [exact H|]. exfalso. exact (N _ _ _ H). }
  split; [|split; [|split; [|exact T4]]].
  - intros n o H. destruct (T1 n o H) as [X|X]; [left; exact X|right; apply in_app_iff; left; exact X].
  - intros i p m H. exact (T2 i p m (Q i p m H)).
  - intros i p m q n H1 H2. exact (T3 i p m q n (Q _ _ _ H1) (Q _ _ _ H2)).
Qed.
Lemma keeps_same {A} (m : M A) : (forall k, match m k with Go _ k' => k_fds k' = k_fds k /\ k_next k' = k_next k /\ k_trace k' = k_trace k | Stop e => tracked_end e end) -> keeps m.
Proof.
  intros H k T. unfold wp. specialize (H k). destruct (m k) as [a k'|e]; [|exact H].
  destruct H as (H1 & H2 & H3). unfold tracked in *. rewrite H1, H2, H3. exact T.
Qed.
Lemma keeps_stop {A} e : tracked_end e -> keeps (fun _ => @Stop A e).
Proof. intros H k T. exact H. Qed.
Lemma keeps_fds fds k : tracked k ->
  (forall n o, fd_get fds n = Some o -> (exists m, fd_get (k_fds k) m = Some o)) ->
  forall k', k_trace k' = k_trace k -> k_next k' = k_next k -> k_fds k' = fds -> tracked k'.
Proof.
  intros (T1 & T2 & T3 & T4) H k' E1 E2 E3. unfold tracked. rewrite E1, E2, E3. split; [|auto].
  intros n o X. destruct (H n o X) as (m & Y). exact (T1 m o Y).
Qed.

Variable env : child_env.

Lemma keeps_setrlimit r v : keeps (setrlimit env r v).
Proof.
  apply keeps_bind; [apply keeps_call|]. intros b. destruct b; [|apply keeps_ret].
  apply keeps_bind; [apply keeps_same; intros k; cbn; auto|]. intros _.
  apply keeps_bind; [apply keeps_emit; discriminate|]. intros _. apply keeps_ret.
Qed.
Lemma keeps_cred c : keeps (set_cred c).
Proof. apply keeps_same. intros k. cbn. auto. Qed.

Lemma keeps_fopen path m : keeps (fopen env path m).
Proof.
  apply keeps_bind; [apply keeps_call|]. intros b. destruct b; [|apply keeps_ret].
  apply keeps_get. intros k (T1 & T2 & T3 & T4). unfold wp. cbn. unfold tracked. cbn.
  set (new := EvOpen (k_next k) path m). split; [|split; [|split]].
  - intros n o. rewrite fd_get_set. destruct (Nat.eqb (lowest_free (k_fds k)) n).
    + intros E. injection E as <-. right. cbn. apply in_app_iff. right. left. reflexivity.
    + intros E. destruct (T1 n o E) as [X|X]; [left; exact X|right; apply in_app_iff; left; exact X].
  - intros i p q H. apply in_app_iff in H. destruct H as [H|[H|[]]]; [specialize (T2 _ _ _ H); lia|injection H as <- _ _; lia].
  - intros i p m' q n H1 H2. apply in_app_iff in H1. apply in_app_iff in H2.
    destruct H1 as [H1|[H1|[]]], H2 as [H2|[H2|[]]].
    + exact (T3 _ _ _ _ _ H1 H2).
    + injection H2 as <- <- <-. specialize (T2 _ _ _ H1). lia.
    + injection H1 as <- <- <-. specialize (T2 _ _ _ H2). lia.
    + injection H1 as <- <- <-. injection H2 as <- <-. auto.
  - lia.
Qed.

Lemma keeps_dup2 old new : keeps (dup2 env old new).
Proof.
  apply keeps_get. intros k T. unfold wp, bind, call.
  assert (forall b : bool, match (match fd_get (k_fds k) old with
     | Some o => if b then set_fds (fd_set (k_fds k) new (Some o)) (k_next k) ;;; emit (EvDup2 old new) ;;; ret true else ret false
     | None => ret false end) (bump k) with Go _ k' => tracked k' | Stop e => tracked_end e end) as Z0.
  { intros b. destruct (fd_get (k_fds k) old) as [o|] eqn:E; [|exact T]. destruct b; [|exact T]. cbn -[fd_get fd_set].
    apply (keeps_emit (EvDup2 old new)) with (k := mkK (fd_set (k_fds k) new (Some o)) (k_next k) (k_rlim k) (k_cred k) (k_filter k) (S (k_calls k)) (k_trace k)); [discriminate|].
    apply (keeps_fds (fd_set (k_fds k) new (Some o)) k); auto.
    intros n o'. rewrite fd_get_set. destruct (Nat.eqb new n); [intros X; injection X as <-; eauto|eauto]. }
  destruct (filters_action (k_filter k) (sys0 "dup2")); first [exact Logic.I|apply (Z0 false)|apply (Z0 (ce_ok env (k_calls k)))].
Qed.

Lemma keeps_set c ev : (forall i p m, ev <> EvOpen i p m) -> keeps (set_cred c ;;; emit ev ;;; ret true).
Proof. intros N. apply keeps_bind; [apply keeps_cred|intros _; apply keeps_bind; [apply keeps_emit, N|intros _; apply keeps_ret]]. Qed.

Lemma keeps_ids : (forall g, keeps (setgid env g)) /\ (forall gs, keeps (setgroups env gs)) /\ (forall u, keeps (setuid env u)).
Proof.
  split; [|split]; intros x; apply keeps_get; intros k T;
    (apply wp_bind; apply (wp_conseq _ (fun _ k' => tracked k') _ tracked_end); [apply keeps_call, T| |auto]); intros b k' T'.
  - destruct (negb b); [exact T'|]. cbv zeta; destruct (euid (k_cred k) =? 0); [|match goal with |- context[if ?g then _ else _] => destruct g end; [|exact T']]; (apply keeps_set; [discriminate|exact T']).
  - cbv zeta. match goal with |- context[if ?g then _ else _] => destruct g end; [|exact T']. apply keeps_set; [discriminate|exact T'].
  - destruct (negb b); [exact T'|]. cbv zeta; destruct (euid (k_cred k) =? 0); [|match goal with |- context[if ?g then _ else _] => destruct g end; [|exact T']]; (apply keeps_set; [discriminate|exact T']).
Qed.

Lemma keeps_stderr : keeps (stderr_write env).
Proof. apply keeps_bind; [apply keeps_call|intros _; apply keeps_ret]. Qed.
Lemma keeps_calls l : keeps (calls env l).
Proof. induction l; [apply keeps_ret|]. apply keeps_bind; [apply keeps_call|intros _; exact IHl]. Qed.

Lemma keeps_log log code : keeps (child_log_write env log code).
Proof.
  destruct log as [f|]; [|apply keeps_stderr].
  apply keeps_bind; [apply keeps_calls|]. intros _. apply keeps_bind; [apply keeps_call|]. intros b.
  destruct (negb b); [apply keeps_stderr|]. apply keeps_bind; [apply keeps_call|]. intros wr.
  apply keeps_get. intros k T. destruct (fd_get (k_fds k) (s_fd f)) as [o|]; [|apply keeps_stderr, T].
  assert (forall k', tracked k' -> wp (if Nat.eqb (of_id o) (s_id f) && ce_log_regular env && (fst (k_rlim k RFsize) <=? ce_log_size env)
     then if ce_xfsz_default env then (fun k => Stop (CKilled SIGXFSZ k)) else stderr_write env
     else if wr then emit (EvLog code) ;;; _ <- call env (sys0 "flock") ;; ret tt else stderr_write env) (fun _ k' => tracked k') tracked_end k') as Z0.
  { intros k' T'. destruct (_ && _); [destruct (ce_xfsz_default env); [exact Logic.I|apply keeps_stderr, T']|].
    destruct wr; [|apply keeps_stderr, T'].
    revert k' T'. change (keeps (emit (EvLog code) ;;; _ <- call env (sys0 "flock") ;; ret tt)).
    apply keeps_bind; [apply keeps_emit; discriminate|]. intros _. apply keeps_bind; [apply keeps_call|]. intros _. apply keeps_ret. }
  destruct (of_mode o); [apply keeps_stderr, T|apply Z0, T..].
Qed.

Lemma keeps_close fp : keeps (close_file env fp).
Proof.
  destruct fp as [f|]; [|apply keeps_ret]. apply keeps_get. intros k T.
  destruct (existsb _ _); [exact Logic.I|]. unfold wp, bind, call.
  assert (tracked (mkK (fd_set (k_fds k) (s_fd f) None) (k_next k) (k_rlim k) (k_cred k) (k_filter k) (S (k_calls k)) (k_trace k ++ [EvFclose (s_id f)]))) as Z0.
  { apply (keeps_emit (EvFclose (s_id f))) with (k := mkK (fd_set (k_fds k) (s_fd f) None) (k_next k) (k_rlim k) (k_cred k) (k_filter k) (S (k_calls k)) (k_trace k)); [discriminate|].
    apply (keeps_fds (fd_set (k_fds k) (s_fd f) None) k); auto. intros n o. rewrite fd_get_set. destruct (Nat.eqb (s_fd f) n); [discriminate|eauto]. }
  destruct (filters_action (k_filter k) (sys0 "close")); first [exact Z0|exact Logic.I].
Qed.

Lemma keeps_fail {A} log i o e code : keeps (@child_error_exit env A log i o e code).
Proof.
  apply keeps_bind; [apply keeps_log|]. intros _. apply keeps_bind; [apply keeps_close|]. intros _.
  apply keeps_bind; [destruct (same_stream o e); [apply keeps_close|apply keeps_bind; [apply keeps_close|intros _; apply keeps_close]]|].
  intros _. apply keeps_bind; [|intros _; apply keeps_stop; exact Logic.I].
  apply keeps_bind; [apply keeps_call_sure|]. intros b k T. unfold wp. destruct (_ && _); exact Logic.I.
Qed.

Lemma keeps_limit {A} log active r v (K : M A) : keeps K -> keeps (limit_block env log active r v K).
Proof.
  intros H. unfold limit_block. destruct active; [|exact H]. destruct v; [|apply keeps_stop; exact Logic.I].
  apply keeps_bind; [apply keeps_setrlimit|]. intros b. destruct b; [exact H|apply keeps_fail].
Qed.

Lemma keeps_child log c : keeps (child_process_m env log c).
Proof.
  unfold child_process_m, set_limits. do 5 apply keeps_limit.
  apply keeps_bind.
  { unfold redirect_input. destruct (input_path c) as [p|]; [|apply keeps_ret].
    apply keeps_bind; [apply keeps_fopen|]. intros [f|]; [|apply keeps_fail].
    apply keeps_bind; [apply keeps_dup2|]. intros b. destruct b; [apply keeps_ret|apply keeps_fail]. }
  intros i. apply keeps_bind.
  { unfold redirect_output. destruct (output_path c) as [p|]; [|apply keeps_ret].
    apply keeps_bind; [apply keeps_fopen|]. intros [f|]; [|apply keeps_fail].
    apply keeps_bind; [apply keeps_dup2|]. intros b. destruct b; [apply keeps_ret|apply keeps_fail]. }
  intros o. apply keeps_bind.
  { unfold redirect_error. destruct (error_path c) as [p|]; [|apply keeps_ret].
    apply keeps_bind.
    - destruct (output_path c) as [q|]; [destruct (str_eqb q p); [apply keeps_ret|]|];
        (apply keeps_bind; [apply keeps_fopen|]; intros [f|]; [apply keeps_ret|apply keeps_fail]).
    - intros [f|]; [|apply keeps_stop; exact Logic.I].
      apply keeps_bind; [apply keeps_dup2|]. intros b. destruct b; [apply keeps_ret|apply keeps_fail]. }
  intros e. unfold drop_privileges. destruct keeps_ids as (K1 & K2 & K3). apply keeps_bind.
  { destruct (id_given (gid c)); [|apply keeps_ret]. apply keeps_bind; [apply K1|]. intros b. destruct b; [apply K2|apply keeps_ret]. }
  intros b1. destruct (negb b1); [apply keeps_fail|]. apply keeps_bind; [destruct (id_given (uid c)); [apply K3|apply keeps_ret]|].
  intros b2. destruct b2; [|apply keeps_fail]. unfold load_seccomp.
  assert (keeps (@execve env unit c (child_error_exit env log i o e EXECVE_FAILED))) as Ke.
  { apply keeps_bind; [apply keeps_call|]. intros b. destruct b; [|apply keeps_fail].
    apply keeps_bind; [apply keeps_emit; discriminate|]. intros _ k T. exact T. }
  destruct (select_filter _ _ _ _) as [[f|]|]; [|exact Ke|apply keeps_fail].
  apply keeps_bind; [apply keeps_same; intros k; cbn; auto|]. intros _.
  apply keeps_bind; [apply keeps_emit; discriminate|]. intros _. exact Ke.
Qed.
End Tracked.

Lemma exec_tracked env log c k0 p a v k : forked k0 -> child_process env log c k0 = CExec p a v k -> tracked k0 k.
Proof.
  intros (F1 & F2 & F3) E. unfold child_process in E. 
  assert (tracked k0 k0) as T.
  { split; [|rewrite F1; split; [intros ? ? ? []|split; [intros ? ? ? ? ? []|lia]]]. intros n o H. left. exists n. exact H. }
  pose proof (keeps_child k0 env log c k0 T) as W. unfold wp in W.
  destruct (child_process_m env log c k0) as [u k'|e]; [discriminate E|]. subst e. exact W.
Qed.
