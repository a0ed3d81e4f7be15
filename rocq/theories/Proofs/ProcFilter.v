(** C86, C87: which system calls make processes under each profile. *)
From Coq Require Import ZArith Bool List Arith String Lia.
From Verif.Base Require Import CInt CStr.
From Verif.Model Require Import Config Runner Processes.
From Verif.Model Require Child Seccomp.
From Verif.Spec Require Import ProcSpec.
From Verif.Proofs Require Import ProcBase ProcLimit ProcAccount ProcResults.
Import ListNotations.
Open Scope list_scope.
Open Scope Z_scope.

Lemma calls_cases : forall call (l : list string), existsb (String.eqb call) l = true <-> In call l.
Proof.
  intros call l. rewrite existsb_exists. split.
  - intros (a & A & E). apply String.eqb_eq in E. subst a. exact A.
  - intro A. exists call. split; [exact A|apply String.eqb_refl].
Qed.
Lemma str_eqb_sym' : forall a b, str_eqb a b = str_eqb b a.
Proof.
  intros a b. destruct (str_eqb a b) eqn:E.
  - apply str_eqb_eq in E. subst b. symmetry. apply str_eqb_eq. reflexivity.
  - destruct (str_eqb b a) eqn:E'; [|reflexivity]. apply str_eqb_eq in E'. subst b. rewrite <- E. apply str_eqb_eq. reflexivity.
Qed.
Lemma fork_call_spec : forall c call, fork_call c call = true <-> In call (can_fork_by (seccomp_rule_name c)).
Proof.
  intros c call. unfold fork_call. rewrite andb_true_iff, calls_cases. unfold let_through, can_fork_by, Seccomp.select_filter.
  destruct (seccomp_rule_name c) as [nm|]; [|cbn; tauto].
  rewrite !(str_eqb_sym' nm).
  destruct (str_eqb (lit "c_cpp") nm) eqn:E1.
  { apply str_eqb_eq in E1. subst nm. cbn [str_eqb]. split; [|cbn; tauto]. intros (A & B). exfalso.
    cbn in A. repeat destruct A as [<-|A]; try exact A; vm_compute in B; discriminate. }
  destruct (str_eqb (lit "c_cpp_file_io") nm) eqn:E2.
  { apply str_eqb_eq in E2. subst nm. split; [|cbn; tauto]. intros (A & B). exfalso.
    cbn in A. repeat destruct A as [<-|A]; try exact A; vm_compute in B; discriminate. }
  destruct (str_eqb (lit "general") nm) eqn:E3.
  { split.
    - intros (A & B). cbn in A. repeat destruct A as [<-|A]; try (vm_compute in B; discriminate); [left; reflexivity|destruct A].
    - intros [<-|[]]. split; [cbn; tauto|vm_compute; reflexivity]. }
  destruct (str_eqb (lit "golang") nm) eqn:E4.
  { cbn [orb]. split.
    - intros (A & B). cbn in A. repeat destruct A as [<-|A]; try (vm_compute in B; discriminate);
        [left; reflexivity|right; left; reflexivity|destruct A].
    - intros [<-|[<-|[]]]; (split; [cbn; tauto|vm_compute; reflexivity]). }
  destruct (str_eqb (lit "node") nm) eqn:E5.
  { cbn [orb]. split.
    - intros (A & B). cbn in A. repeat destruct A as [<-|A]; try (vm_compute in B; discriminate);
        [left; reflexivity|right; left; reflexivity|destruct A].
    - intros [<-|[<-|[]]]; (split; [cbn; tauto|vm_compute; reflexivity]). }
  cbn [orb]. split; [intros (_ & B); discriminate | intros []].
Qed.

Lemma alone_fork' : forall evs w x c m p r call, history [] evs = Some w -> In (Starts x c m) evs ->
  max_process_number c <> UNLIMITED -> uid c <> keep_user -> uid c <> 0 ->
  (forall q k, ~ In (Lowers q k) evs) -> exclusive (uid c) (family x evs) w ->
  In p (family x evs) -> get w p = Some r -> at_stage Prog r = true -> In call (can_fork_by (seccomp_rule_name c)) ->
  ((exists w', step w (Forks p (List.length w) call) = Some w') <-> size (family x evs) w < max_process_number c).
Proof.
  intros evs w x c m p r call H I Nn Nu N0 NL X Ip G Sp Fc. apply fork_call_spec in Fc. eapply alone_fork; eauto.
Qed.

(** ** All processes of a family have its configuration *)
Lemma step_length : forall w e w', step w e = Some w' -> (List.length w <= List.length w')%nat.
Proof.
  intros w e w' T. apply step_stepped in T. destruct e; cbn [stepped] in T;
    repeat match goal with K : exists _, _ |- _ => destruct K
                         | K : _ /\ _ |- _ => destruct K end; subst;
    rewrite ?put_length, ?app_length, ?map_length; lia.
Qed.
Lemma family_conf : forall evs w x c m, history [] evs = Some w -> In (Starts x c m) evs ->
  forall q r, In q (family x evs) -> get w q = Some r -> r_conf r = c.
Proof.
  intros evs. induction evs as [|e evs IH] using rev_ind; intros w x c m H I q r Q G; [destruct I|].
  apply history_snoc in H. destruct H as (v & V & T). rewrite family_snoc in Q.
  pose proof (shape_history x evs v V) as Sh. apply in_app_or in I. destruct I as [I|[->|[]]].
  - destruct (started _ _ _ _ _ V I) as (L & _).
    assert (Old : In q (family x evs) -> r_conf r = c).
    { intro O. pose proof (sh_after _ _ _ Sh L q O) as Lq. destruct (conf_step q v e w r T Lq G) as (r0 & G0 & ->). eauto. }
    destruct e; try (apply Old; exact Q). cbn [grow] in Q. destruct (In_ p (family x evs)) eqn:P; [|apply Old; exact Q].
    destruct Q as [->|Q]; [|apply Old; exact Q]. apply In__spec in P.
    apply step_stepped in T. destruct T as (r0 & G0 & _ & -> & _ & _ & _ & K). rewrite K, Nat.eqb_refl in G. injection G as <-.
    cbn. eauto.
  - cbn [grow] in Q. apply step_stepped in T. cbn [stepped] in T. destruct T as (-> & _ & _ & _ & K).
    rewrite (sh_before _ _ _ Sh (Nat.le_refl _)) in Q. destruct Q as [<-|[]]. rewrite K, Nat.eqb_refl in G.
    injection G as <-. reflexivity.
Qed.
Lemma forker : forall evs w p q call, history [] evs = Some w -> In (Forks p q call) evs -> (p < List.length w)%nat.
Proof.
  intros evs. induction evs as [|e evs IH] using rev_ind; intros w p q call H I; [destruct I|].
  apply history_snoc in H. destruct H as (v & V & T). pose proof (step_length _ _ _ T) as L.
  apply in_app_or in I. destruct I as [I|[->|[]]].
  - specialize (IH _ _ _ _ V I). lia.
  - apply step_stepped in T. destruct T as (r & G & _). apply get_lt in G. lia.
Qed.
Lemma calls_made : forall evs w x c m p q call, history [] evs = Some w -> In (Starts x c m) evs ->
  In (Forks p q call) evs -> In p (family x evs) -> In call (can_fork_by (seccomp_rule_name c)).
Proof.
  intros evs. induction evs as [|e evs IH] using rev_ind; intros w x c m p q call H I F P; [destruct I|].
  pose proof H as H'. apply history_snoc in H. destruct H as (v & V & T). rewrite family_snoc in P.
  pose proof (shape_history x evs v V) as Sh.
  assert (Before : In p (family x evs) \/ (List.length v <= p)%nat).
  { destruct e; try (left; exact P). cbn [grow] in P. destruct (In_ p0 (family x evs)); [|left; exact P].
    destruct P as [->|P]; [|left; exact P]. apply step_stepped in T. destruct T as (r & _ & _ & -> & _). right. lia. }
  apply in_app_or in F. destruct F as [F|[->|[]]].
  - pose proof (forker _ _ _ _ _ V F) as L. destruct Before as [B|B]; [|lia].
    apply in_app_or in I. destruct I as [I|[->|[]]]; [eauto|].
    apply step_stepped in T. cbn [stepped] in T. destruct T as (-> & _).
    rewrite (sh_before _ _ _ Sh (Nat.le_refl _)) in B. destruct B as [B|[]]. lia.
  - apply in_app_or in I. destruct I as [I|[I|[]]]; [|discriminate I].
    apply fork_call_spec. cbn [step] in T. destruct (get v p) as [r|] eqn:G; [|discriminate].
    unfold guard in T. destruct (_ && _) eqn:E; [|discriminate]. rewrite !andb_true_iff in E. destruct E as ((_ & E) & _).
    destruct Before as [B|B]; [|apply get_lt in G; lia]. rewrite (family_conf _ _ _ _ _ V I p r B G) in E. exact E.
Qed.

(** ** Programs that cannot make processes *)
Lemma spent_own : forall evs x, (forall q call, ~ In (Forks x q call) evs) -> spent [x] evs = own_time x evs.
Proof.
  induction evs as [|e evs IH]; intros x F; [reflexivity|]. cbn [spent own_time].
  assert (E : grow [x] e = [x]).
  { destruct e; try reflexivity. cbn. destruct (Nat.eqb_spec p x) as [->|N]; [|reflexivity].
    exfalso. eapply (F q). left. reflexivity. }
  rewrite E, IH by (intros q call Q; apply (F q call); right; exact Q). f_equal.
  destruct e; try reflexivity. unfold In_. cbn [existsb]. rewrite orb_false_r. reflexivity.
Qed.
Lemma only_one : forall evs w x c m s e res, history [] evs = Some w -> In (Starts x c m) evs ->
  (forall q call, In call (can_fork_by (seccomp_rule_name c)) -> ~ In (Forks x q call) evs) ->
  reported w x s e = Some (Val res) -> signal res <> SIGUSR1 -> own_time x evs / 1000 <= INT_MAX ->
  cpu_time res = own_time x evs / 1000 /\ memory res = 1024 * largest [x] evs.
Proof.
  intros evs w x c m s e res H I N R Sg Le.
  assert (F : forall q call, ~ In (Forks x q call) evs).
  { intros q call Q. apply (N q call); [|exact Q]. eapply calls_made; eauto. apply (sh_self _ _ _ (shape_history x evs w H)). }
  pose proof (single_process _ _ _ _ _ _ H R F) as A. rewrite <- (spent_own evs x F) in *. split.
  - eapply cpu_exact; eauto.
  - eapply memory_is; eauto.
Qed.
Lemma confined_one : forall evs w x c m nm, history [] evs = Some w -> In (Starts x c m) evs ->
  seccomp_rule_name c = Some nm -> In nm [lit "c_cpp"; lit "c_cpp_file_io"] ->
  family x evs = [x] /\
  forall s e res, reported w x s e = Some (Val res) -> signal res <> SIGUSR1 -> own_time x evs / 1000 <= INT_MAX ->
    cpu_time res = own_time x evs / 1000 /\ memory res = 1024 * largest [x] evs.
Proof.
  intros evs w x c m nm H I E Nm.
  assert (C : can_fork_by (seccomp_rule_name c) = []) by (rewrite E; destruct Nm as [<-|[<-|[]]]; reflexivity).
  split.
  - assert (F : forall q call, ~ In (Forks x q call) evs).
    { intros q call Q. pose proof (calls_made _ _ _ _ _ _ _ _ H I Q (sh_self _ _ _ (shape_history x evs w H))) as K.
      rewrite C in K. exact K. }
    clear H I. unfold family. induction evs as [|e evs IH]; [reflexivity|]. cbn [fold_left].
    assert (G : grow [x] e = [x]).
    { destruct e; try reflexivity. cbn. destruct (Nat.eqb_spec p x) as [->|N]; [|reflexivity].
      exfalso. eapply (F q). left. reflexivity. }
    rewrite G. apply IH. intros q call Q. apply (F q call). right. exact Q.
  - intros s e res R Sg Le. eapply only_one; eauto. rewrite C. intros q call [].
Qed.
Lemma general_one : forall evs w x c m s e res, history [] evs = Some w -> In (Starts x c m) evs ->
  seccomp_rule_name c = Some (lit "general") -> (forall q, ~ In (Forks x q "clone3") evs) ->
  reported w x s e = Some (Val res) -> signal res <> SIGUSR1 -> own_time x evs / 1000 <= INT_MAX ->
  cpu_time res = own_time x evs / 1000 /\ memory res = 1024 * largest [x] evs.
Proof.
  intros evs w x c m s e res H I E N R Sg Le. eapply only_one; eauto. rewrite E. intros q call [<-|[]]. apply N.
Qed.

(** ** What is left when the judger has its result *)
Lemma reaped_gone : forall evs w x, history [] evs = Some w -> In (JudgeReaps x) evs -> get w x = None /\ (x < List.length w)%nat.
Proof.
  intros evs. induction evs as [|e evs IH] using rev_ind; intros w x H I; [destruct I|].
  apply history_snoc in H. destruct H as (v & V & T). pose proof (step_length _ _ _ T) as L.
  apply in_app_or in I. destruct I as [I|[->|[]]].
  - destruct (IH _ _ V I) as (G & Lv). split; [|lia].
    destruct (get w x) as [r|] eqn:Gw; [|reflexivity]. destruct (conf_step x v e w r T Lv Gw) as (r0 & G0 & _). congruence.
  - apply step_stepped in T. cbn [stepped] in T. destruct T as (s & G & _ & _ & ->). pose proof (get_lt _ _ _ G).
    rewrite put_length. split; [apply get_put_same; assumption|assumption].
Qed.
Lemma nothing_left : forall evs w x c m nm, history [] evs = Some w -> In (Starts x c m) evs ->
  seccomp_rule_name c = Some nm -> In nm [lit "c_cpp"; lit "c_cpp_file_io"] ->
  In (JudgeReaps x) evs -> forall p, In p (family x evs) -> get w p = None.
Proof.
  intros evs w x c m nm H I E Nm J p P. destruct (confined_one _ _ _ _ _ _ H I E Nm) as (F & _). rewrite F in P.
  destruct P as [<-|[]]. apply (reaped_gone _ _ _ H J).
Qed.
