(** Several calls of run() in one process. *)
From Coq Require Import ZArith Bool List Lia ZifyBool.
From Verif.Base Require Import CInt CStr.
From Verif.Model Require Import Config Runner Timeout Calls.
From Verif.Spec Require Import Verdict RunSpec TimeoutSpec LifeSpec CallsSpec.
From Verif.Proofs Require Import TimeoutProofs TimeoutClaims LifeProofs.
Import ListNotations.
Open Scope Z_scope.

Local Opaque judge error_result tv wait_status step.

Lemma nth_mapi {A B} (f : nat -> A -> B) l : forall n i,
  nth_error (mapi_from n f l) i = option_map (f (n + i)%nat) (nth_error l i).
Proof.
  induction l as [|x l IH]; intros n [|i]; cbn; try reflexivity.
  - rewrite Nat.add_0_r. reflexivity.
  - rewrite IH. replace (S n + i)%nat with (n + S i)%nat by lia. reflexivity.
Qed.

Lemma nth_everywhere f o l : forall l' i, everywhere f o l = Some l' ->
  match nth_error l i, nth_error l' i with
  | Some c, Some c' => event f o c = Some c'
  | None, None => True
  | _, _ => False
  end.
Proof.
  induction l as [|c l IH]; intros l' i H; cbn in H.
  - injection H as <-. destruct i; exact I.
  - destruct (event f o c) as [c'|] eqn:E; [|discriminate]. destruct (everywhere f o l) as [l1|] eqn:E1; [|discriminate].
    injection H as <-. destruct i as [|i]; [exact E|]. cbn [nth_error]. apply (IH l1 i eq_refl).
Qed.

(** [c'] is [c] later; [new] happened in between. *)
Definition later (c c' : call) (new : list (origin * op)) : Prop :=
  c_par c' = c_par c /\ c_mono c' = c_mono c /\ c_wall c' = c_wall c /\ c_past c' = c_past c ++ new /\
  exec (c_par c) (c_st c) (map snd new) = Some (c_st c').

Lemma later_refl c : later c c [].
Proof. repeat split. rewrite app_nil_r. reflexivity. Qed.
Lemma later_event f o c c' : event f o c = Some c' -> later c c' [(f, o)].
Proof.
  unfold event. destruct (step (c_par c) (c_st c) o) as [s|] eqn:E; [|discriminate]. intros H. injection H as <-.
  repeat split. cbn. rewrite E. reflexivity.
Qed.

Lemma suffer_later f o c : suffer f o c = c \/ event f o c = Some (suffer f o c).
Proof. unfold suffer. destruct (event f o c) as [c'|] eqn:E; auto. Qed.

(** One step, seen from the call with number [j]. *)
Lemma gstep_call g x g' j c : gstep g x = Some g' -> nth_error (g_calls g) j = Some c ->
  exists c', nth_error (g_calls g') j = Some c' /\
   (later c c' [] \/
    (exists f o, event f o c = Some c' /\ (forall i, f <> Other i)) \/
    (exists i ci ci', i <> j /\ nth_error (g_calls g) i = Some ci /\ nth_error (g_calls g') i = Some ci' /\
       (exists o, event Own o ci = Some ci') /\ p_pid (c_par c) = p_pid (c_par ci) /\
       ((event (Other i) Recycle c = Some c' /\ forks ci ci' = true) \/
        (event (Other i) (Die SIGKILL false) c = Some c' /\ strays ci ci' = true)))).
Proof.
  intros H N. destruct x as [P|i o|d|d|i]; cbn [gstep] in H.
  - injection H as <-. exists c. cbn [g_calls]. rewrite nth_error_app1 by (apply nth_error_Some; congruence).
    split; [exact N|left; apply later_refl].
  - destruct (own_op o); [|discriminate]. destruct (nth_error (g_calls g) i) as [ci|] eqn:Ei; [|discriminate].
    destruct (event Own o ci) as [ci'|] eqn:Ev; [|discriminate]. destruct (_ && _) in H; [discriminate|].
    injection H as <-. cbn [g_calls]. rewrite nth_mapi, N. cbn [option_map Nat.add].
    eexists. split; [reflexivity|]. destruct (Nat.eqb j i) eqn:Q.
    + apply Nat.eqb_eq in Q. subst j. assert (c = ci) as -> by congruence.
      right. left. exists Own, o. split; [exact Ev|discriminate].
    + apply Nat.eqb_neq in Q. unfold effect. destruct (p_pid (c_par c) =? p_pid (c_par ci)) eqn:Pq; [|left; apply later_refl].
      apply Z.eqb_eq in Pq.
      destruct (forks ci ci') eqn:Fk.
      * destruct (suffer_later (Other i) Recycle c) as [->|Sf]; [left; apply later_refl|].
        right. right. exists i, ci, ci'. split; [exact (not_eq_sym Q)|]. split; [exact Ei|]. split; [rewrite nth_mapi, Ei; cbn; rewrite Nat.eqb_refl; reflexivity|]. split; [exists o; exact Ev|]. split; [exact Pq|]. left. split; [exact Sf|exact Fk].
      * destruct (strays ci ci') eqn:St; [|left; apply later_refl].
        destruct (suffer_later (Other i) (Die SIGKILL false) c) as [->|Sf]; [left; apply later_refl|].
        right. right. exists i, ci, ci'. split; [exact (not_eq_sym Q)|]. split; [exact Ei|]. split; [rewrite nth_mapi, Ei; cbn; rewrite Nat.eqb_refl; reflexivity|]. split; [exists o; exact Ev|]. split; [exact Pq|]. right. split; [exact Sf|exact St].
  - destruct (everywhere Clock (Tick d) (g_calls g)) as [l|] eqn:E; [|discriminate]. destruct (0 <? d); [|discriminate].
    injection H as <-. cbn [g_calls]. pose proof (nth_everywhere _ _ _ _ j E) as X. rewrite N in X.
    destruct (nth_error l j) as [c'|]; [|contradiction]. exists c'. split; [reflexivity|].
    right. left. exists Clock, (Tick d). split; [exact X|discriminate].
  - destruct (everywhere Clock (SetClock d) (g_calls g)) as [l|] eqn:E; [|discriminate].
    injection H as <-. cbn [g_calls]. pose proof (nth_everywhere _ _ _ _ j E) as X. rewrite N in X.
    destruct (nth_error l j) as [c'|]; [|contradiction]. exists c'. split; [reflexivity|].
    right. left. exists Clock, (SetClock d). split; [exact X|discriminate].
  - destruct (nth_error (g_calls g) i) as [ci|] eqn:Ei; [|discriminate].
    destruct (existsb _ _) in H; [discriminate|]. destruct (event Kernel Recycle ci) as [ci'|] eqn:Ev; [|discriminate].
    injection H as <-. cbn [g_calls]. rewrite nth_mapi, N. cbn [option_map Nat.add]. eexists. split; [reflexivity|].
    destruct (Nat.eqb j i) eqn:Q; [|left; apply later_refl].
    apply Nat.eqb_eq in Q. subst j. assert (c = ci) as -> by congruence.
    right. left. exists Kernel, Recycle. split; [exact Ev|discriminate].
Qed.

Lemma gstep_later g x g' j c : gstep g x = Some g' -> nth_error (g_calls g) j = Some c ->
  exists c' new, nth_error (g_calls g') j = Some c' /\ later c c' new.
Proof.
  intros H N. destruct (gstep_call _ _ _ _ _ H N) as (c' & N' & [L|[(f & o & E & _)|(i & ci & ci' & _ & _ & _ & _ & _ & [[E _]|[E _]])]]).
  all: exists c'; eexists; split; [exact N'|]; try exact L; apply later_event; exact E.
Qed.

(** A new call is one that was entered. *)
Lemma gstep_new g x g' j c' : gstep g x = Some g' -> nth_error (g_calls g) j = None -> nth_error (g_calls g') j = Some c' ->
  c_past c' = [] /\ c_st c' = init (c_mono c') (c_wall c').
Proof.
  intros H N N'. destruct x as [P|i o|d|d|i]; cbn [gstep] in H.
  - injection H as <-. cbn [g_calls] in N'. rewrite nth_error_app2 in N' by (apply nth_error_None; exact N).
    destruct (j - length (g_calls g))%nat as [|k]; cbn in N'; [injection N' as <-; split; reflexivity|destruct k; discriminate].
  - destruct (own_op o); [|discriminate]. destruct (nth_error (g_calls g) i) as [ci|] eqn:Ei; [|discriminate].
    destruct (event Own o ci) as [ci'|] eqn:Ev; [|discriminate]. destruct (_ && _) in H; [discriminate|].
    injection H as <-. cbn [g_calls] in N'. rewrite nth_mapi, N in N'. discriminate.
  - destruct (everywhere Clock (Tick d) (g_calls g)) as [l|] eqn:E; [|discriminate]. destruct (0 <? d); [|discriminate].
    injection H as <-. cbn [g_calls] in N'. pose proof (nth_everywhere _ _ _ _ j E) as X. rewrite N, N' in X. contradiction.
  - destruct (everywhere Clock (SetClock d) (g_calls g)) as [l|] eqn:E; [|discriminate].
    injection H as <-. cbn [g_calls] in N'. pose proof (nth_everywhere _ _ _ _ j E) as X. rewrite N, N' in X. contradiction.
  - destruct (nth_error (g_calls g) i) as [ci|] eqn:Ei; [|discriminate].
    destruct (existsb _ _) in H; [discriminate|]. destruct (event Kernel Recycle ci) as [ci'|] eqn:Ev; [|discriminate].
    injection H as <-. cbn [g_calls] in N'. rewrite nth_mapi, N in N'. discriminate.
Qed.

Lemma gexec_snoc ops : forall g x g', gexec g (ops ++ [x]) = Some g' -> exists g1, gexec g ops = Some g1 /\ gstep g1 x = Some g'.
Proof.
  induction ops as [|y ops IH]; intros g x g' H; cbn in H.
  - exists g. split; [reflexivity|]. destruct (gstep g x); [exact H|discriminate].
  - cbn. destruct (gstep g y) as [g1|]; [|discriminate]. apply IH. exact H.
Qed.

(** Every call is an execution of its own. *)
Lemma each_call m w ops : forall g, gexec (before_calls m w) ops = Some g -> forall j c, nth_error (g_calls g) j = Some c ->
  exec (c_par c) (began c) (events c) = Some (c_st c).
Proof.
  induction ops as [|x ops IH] using rev_ind; intros g H j c N.
  - cbn in H. injection H as <-. destruct j; discriminate.
  - apply gexec_snoc in H. destruct H as (g1 & H1 & Hx).
    destruct (nth_error (g_calls g1) j) as [c1|] eqn:N1.
    + destruct (gstep_later _ _ _ _ _ Hx N1) as (c' & new & N' & (L1 & L2 & L3 & L4 & L5)).
      assert (c' = c) as -> by congruence. specialize (IH g1 H1 j c1 N1).
      unfold began, events in *. rewrite L1, L2, L3, L4, map_app, exec_app, IH. exact L5.
    + destruct (gstep_new _ _ _ _ _ Hx N1 N) as [A B]. unfold began, events. rewrite A, B. reflexivity.
Qed.

Lemma clock_call m w ops : forall g, gexec (before_calls m w) ops = Some g -> forall j c, nth_error (g_calls g) j = Some c ->
  mono (c_st c) = g_mono g /\ wall (c_st c) = g_wall g.
Proof.
  Local Transparent step.
  assert (forall P s o s', own_op o = true \/ o = Recycle -> step P s o = Some s' -> mono s' = mono s /\ wall s' = wall s) as Sw.
  { intros P s o s' O H. step_cases H; tcbn_all; subst; tcbn_all; try (split; reflexivity); destruct O as [O|O]; discriminate. }
  assert (forall f o c c', own_op o = true \/ o = Recycle -> event f o c = Some c' -> mono (c_st c') = mono (c_st c) /\ wall (c_st c') = wall (c_st c)) as Ew.
  { intros f o c c' O H. unfold event in H. destruct (step (c_par c) (c_st c) o) as [s|] eqn:E; [|discriminate]. injection H as <-. cbn [c_st]. apply (Sw _ _ o _ O E). }
  Local Opaque step.
  assert (forall f o c, own_op o = true \/ o = Recycle -> mono (c_st (suffer f o c)) = mono (c_st c) /\ wall (c_st (suffer f o c)) = wall (c_st c)) as Fw.
  { intros f o c O. destruct (suffer_later f o c) as [->|E]; [split; reflexivity|]. apply (Ew f o _ _ O E). }
  induction ops as [|x ops IH] using rev_ind; intros g H j c N.
  - cbn in H. injection H as <-. destruct j; discriminate.
  - apply gexec_snoc in H. destruct H as (g1 & H1 & Hx). specialize (IH g1 H1).
    destruct x as [P|i o|d|d|i]; cbn [gstep] in Hx.
    + injection Hx as <-. cbn [g_calls g_mono g_wall] in *.
      destruct (nth_error (g_calls g1) j) as [c1|] eqn:N1.
      * rewrite nth_error_app1 in N by (apply nth_error_Some; congruence). apply (IH j). congruence.
      * rewrite nth_error_app2 in N by (apply nth_error_None; exact N1).
        destruct (j - length (g_calls g1))%nat as [|k]; cbn in N; [injection N as <-; split; reflexivity|destruct k; discriminate].
    + destruct (own_op o) eqn:Oo; [|discriminate]. destruct (nth_error (g_calls g1) i) as [ci|] eqn:Ei; [|discriminate].
      destruct (event Own o ci) as [ci'|] eqn:Ev; [|discriminate]. destruct (_ && _) in Hx; [discriminate|].
      injection Hx as <-. cbn [g_calls g_mono g_wall] in *. rewrite nth_mapi in N. cbn [Nat.add] in N.
      destruct (nth_error (g_calls g1) j) as [c1|] eqn:N1; [|discriminate]. cbn [option_map] in N. injection N as <-.
      destruct (Nat.eqb j i).
      * destruct (Ew _ _ _ _ (or_introl Oo) Ev) as [-> ->]. apply (IH i). exact Ei.
      * unfold effect. destruct (_ =? _); [|apply (IH j); exact N1].
        destruct (forks ci ci'); [|destruct (strays ci ci'); [|apply (IH j); exact N1]].
        -- destruct (Fw (Other i) Recycle c1 (or_intror eq_refl)) as [-> ->]. apply (IH j). exact N1.
        -- destruct (Fw (Other i) (Die SIGKILL false) c1 (or_introl eq_refl)) as [-> ->]. apply (IH j). exact N1.
    + destruct (everywhere Clock (Tick d) (g_calls g1)) as [l|] eqn:E; [|discriminate]. destruct (0 <? d); [|discriminate].
      injection Hx as <-. cbn [g_calls g_mono g_wall] in *. pose proof (nth_everywhere _ _ _ _ j E) as X. rewrite N in X.
      destruct (nth_error (g_calls g1) j) as [c1|] eqn:N1; [|contradiction]. destruct (IH j c1 N1) as [<- <-].
      Local Transparent step. unfold event in X. cbn [step] in X. destruct (_ && _) in X; [|discriminate]. injection X as <-. split; reflexivity.
    + destruct (everywhere Clock (SetClock d) (g_calls g1)) as [l|] eqn:E; [|discriminate].
      injection Hx as <-. cbn [g_calls g_mono g_wall] in *. pose proof (nth_everywhere _ _ _ _ j E) as X. rewrite N in X.
      destruct (nth_error (g_calls g1) j) as [c1|] eqn:N1; [|contradiction]. destruct (IH j c1 N1) as [<- <-].
      unfold event in X. cbn [step] in X. injection X as <-. split; reflexivity.
    + Local Opaque step. destruct (nth_error (g_calls g1) i) as [ci|] eqn:Ei; [|discriminate].
      destruct (existsb _ _) in Hx; [discriminate|]. destruct (event Kernel Recycle ci) as [ci'|] eqn:Ev; [|discriminate].
      injection Hx as <-. cbn [g_calls g_mono g_wall] in *. rewrite nth_mapi in N. cbn [Nat.add] in N.
      destruct (nth_error (g_calls g1) j) as [c1|] eqn:N1; [|discriminate]. cbn [option_map] in N. injection N as <-.
      destruct (Nat.eqb j i); [|apply (IH j); exact N1].
      destruct (Ew _ _ _ _ (or_intror eq_refl) Ev) as [-> ->]. apply (IH i). exact Ei.
Qed.

Local Transparent step.
Lemma kills_step P s o s' k : step P s o = Some s' -> In k (kills s) -> In k (kills s').
Proof. intros H I. step_cases H; tcbn_all; subst; tcbn_all; try exact I; try (apply in_or_app; left; exact I). Qed.
Local Opaque step.
Lemma kills_exec P ops : forall s s' k, exec P s ops = Some s' -> In k (kills s) -> In k (kills s').
Proof.
  induction ops as [|o ops IH]; intros s s' k E I; cbn in E; [congruence|].
  destruct (step P s o) as [t|] eqn:St; [|discriminate]. apply (IH t); auto. eapply kills_step; eassumption.
Qed.

Lemma strays_kill c c' : strays c c' = true -> exists k, In k (kills (c_st c')) /\ kl_target k = TStranger.
Proof.
  unfold strays. destruct (skipn _ _) as [|k [|]] eqn:E; try discriminate. destruct (kl_target k) eqn:T; try discriminate. intros _.
  exists k. split; [|exact T]. rewrite <- (firstn_skipn (length (kills (c_st c))) (kills (c_st c'))), E. apply in_or_app. right. left. reflexivity.
Qed.

(** Who is responsible. *)
Lemma from_other m w ops : forall g, gexec (before_calls m w) ops = Some g -> forall j c i o,
  nth_error (g_calls g) j = Some c -> In (Other i, o) (c_past c) ->
  i <> j /\ exists ci, nth_error (g_calls g) i = Some ci /\ p_pid (c_par ci) = p_pid (c_par c) /\
  (o = Recycle \/ (o = Die 9 false /\ exists k, In k (kills (c_st ci)) /\ kl_target k = TStranger)).
Proof.
  induction ops as [|x ops IH] using rev_ind; intros g H j c i o N I.
  - cbn in H. injection H as <-. destruct j; discriminate.
  - apply gexec_snoc in H. destruct H as (g1 & H1 & Hx).
    destruct (nth_error (g_calls g1) j) as [c1|] eqn:N1.
    2:{ destruct (gstep_new _ _ _ _ _ Hx N1 N) as [A _]. rewrite A in I. destruct I. }
    (* what is past stays so *)
    assert (In (Other i, o) (c_past c1) -> c_par c = c_par c1 ->
      i <> j /\ exists ci, nth_error (g_calls g) i = Some ci /\ p_pid (c_par ci) = p_pid (c_par c) /\
      (o = Recycle \/ (o = Die 9 false /\ exists k, In k (kills (c_st ci)) /\ kl_target k = TStranger))) as Old.
    { intros I1 Pq. destruct (IH g1 H1 j c1 i o N1 I1) as (Nij & ci & Ni & Pi & R). split; [exact Nij|].
      destruct (gstep_later _ _ _ _ _ Hx Ni) as (ci' & new & Ni' & (L1 & L2 & L3 & L4 & L5)).
      exists ci'. split; [exact Ni'|]. split; [congruence|].
      destruct R as [R|(R & k & K1 & K2)]; [left; exact R|right; split; [exact R|]]. exists k. split; [|exact K2].
      eapply kills_exec; eassumption. }
    assert (forall f y, event f y c1 = Some c -> c_par c = c_par c1 /\ c_past c = c_past c1 ++ [(f, y)]) as Ev.
    { intros f y E. destruct (later_event _ _ _ _ E) as (L1 & _ & _ & L4 & _). auto. }
    destruct (gstep_call _ _ _ _ _ Hx N1) as (c' & N' & D). assert (c' = c) as -> by congruence.
    destruct D as [(L1 & _ & _ & L4 & _)|[(f & y & E & Nf)|(i' & ci & ci' & Nij & Ni & Ni' & (y & Eo) & Pq & [[E Fk]|[E St]])]].
    + rewrite L4, app_nil_r in I. apply Old; auto.
    + destruct (Ev _ _ E) as [A B]. rewrite B in I. apply in_app_or in I. destruct I as [I|[I|[]]]; [apply Old; auto|].
      exfalso. apply (Nf i). congruence.
    + destruct (Ev _ _ E) as [A B]. rewrite B in I. apply in_app_or in I. destruct I as [I|[I|[]]]; [apply Old; auto|].
      assert (i' = i) as -> by congruence. assert (o = Recycle) as -> by congruence.
      split; [exact Nij|]. exists ci'. split; [exact Ni'|]. destruct (later_event _ _ _ _ Eo) as (L1 & _). split; [congruence|left; reflexivity].
    + destruct (Ev _ _ E) as [A B]. rewrite B in I. apply in_app_or in I. destruct I as [I|[I|[]]]; [apply Old; auto|].
      assert (i' = i) as -> by congruence. assert (o = Die 9 false) as -> by (change SIGKILL with 9 in I; congruence).
      split; [exact Nij|]. exists ci'. split; [exact Ni'|]. destruct (later_event _ _ _ _ Eo) as (L1 & _). split; [congruence|].
      right. split; [reflexivity|]. apply (strays_kill _ _ St).
Qed.

Lemma undisturbed lag m w ops g i j c ci :
  0 <= lag -> gexec (before_calls m w) ops = Some g ->
  nth_error (g_calls g) j = Some c -> nth_error (g_calls g) i = Some ci ->
  ordinary lag ci -> in_good_time lag ci -> ~ ended_by i c.
Proof.
  intros L H Nj Ni (T & Na & A & NI & C & S & N & Pr) G (sig & core & I).
  destruct (from_other m w ops g H j c i _ Nj I) as (_ & ci' & Ni' & _ & [X|(_ & k & K1 & K2)]); [discriminate|].
  assert (ci' = ci) as -> by congruence.
  pose proof (each_call m w ops g H i ci Ni) as E. unfold began in *.
  destruct (c33_before_reap (c_par ci) (c_mono ci) (c_wall ci) (events ci) (c_st ci) k T A E K1) as [_ B].
  assert (proc_st (c_st ci) = Reaped) as Re.
  { destruct (proc_st (c_st ci)); try reflexivity; exfalso; rewrite B in K2; discriminate. }
  destruct (find_end (c_par ci) (c_mono ci) (c_wall ci) (events ci) (c_st ci) E) as (o & life & Li).
  { unfold over. rewrite Re. exact Logic.I. }
  pose proof (G o life Li) as In.
  rewrite (in_time_unharmed (c_par ci) lag (c_mono ci) (c_wall ci) (events ci) (c_st ci) o life) in K1; auto.
Qed.

Lemma call_succeeds lag m w ops g j c r life :
  0 <= lag -> gexec (before_calls m w) ops = Some g -> nth_error (g_calls g) j = Some c ->
  ordinary lag c -> limits_accepted (p_config (c_par c)) -> 0 < p_pid (c_par c) -> usages_ok (events c) ->
  clocks_fit (c_mono c) (c_wall c) (c_st c) -> returned (c_st c) r -> error r = 0 ->
  lives own_end (c_par c) (began c) (events c) (Exited 0) life ->
  life + 5 * lag <= 1000 * max_real_time (p_config (c_par c)) ->
  ~ exceeded (max_cpu_time (p_config (c_par c))) (cpu_time r) -> ~ exceeded (max_memory (p_config (c_par c))) (memory r) ->
  verdict r = 0 /\ kills (c_st c) = [].
Proof.
  intros L H N (T & Na & A & NI & C & S & Ns & Pr) La Pp U Fit R Z Li In Nc Nm.
  pose proof (each_call m w ops g H j c N) as E. unfold began in *. apply own_lives in Li.
  split.
  - destruct (in_time (c_par c) lag (c_mono c) (c_wall c) (events c) (c_st c) r (Exited 0) life) as (_ & _ & X); auto.
  - apply (in_time_unharmed (c_par c) lag (c_mono c) (c_wall c) (events c) (c_st c) (Exited 0) life); auto.
    apply (c36_reaped (c_par c) (c_mono c) (c_wall c) (events c) (c_st c) r); auto.
Qed.
