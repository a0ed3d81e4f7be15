(** Invariants of judged programs while they run. *)
From Coq Require Import ZArith Bool List String Lia.
From Verif.Base Require Import CInt CStr.
From Verif.Model Require Import Config Runner Seccomp Child Program.
From Verif.Spec Require Import Syscalls SandboxSpec ContainSpec.
From Verif.Proofs Require Import SeccompProofs ChildClaims.
Import ListNotations.
Open Scope list_scope.
Open Scope Z_scope.

(** What the set-up gives. *)
Record confined (P0 : proc) : Prop := mkConf {
  cf_threads : p_threads P0 = 1%nat;
  cf_nnp : p_nnp P0 = true;
  cf_user : euid (p_cred P0) <> 0;
  cf_lim : forall r, fst (p_rlim P0 r) <= snd (p_rlim P0 r);
  cf_calls : forall sc, filters_action (p_filters P0) sc = ActAllow ->
    In (sc_name sc) (harmless ++ ["execve"; "open"; "openat"; "dup"; "dup2"; "dup3"]%string);
  cf_two : forall sc, filters_action (p_filters P0) sc = ActAllow \/ filters_action (p_filters P0) sc = ActKill
}.

Record read_only_opens (P0 : proc) : Prop := mkRo {
  ro_open : forall sc fl, filters_action (p_filters P0) sc = ActAllow -> open_flags sc = Some fl -> read_only fl;
  ro_dup : forall sc, filters_action (p_filters P0) sc = ActAllow -> ~ In (sc_name sc) ["dup"; "dup2"; "dup3"]%string
}.

Lemma judged_facts c ptr P : judged c ptr P -> as_user c -> seccomp_rule_name c <> None ->
  p_threads P = 1%nat /\ p_nnp P = true /\ euid (p_cred P) <> 0 /\ ruid (p_cred P) = uid c /\
  (forall r, fst (p_rlim P r) <= snd (p_rlim P r)).
Proof.
  intros (env & log & k0 & path & a & v & k & R & U & L & E & _ & ->) (U1 & U2 & U3) N.
  split; [reflexivity|].
  split.
  { destruct (seccomp_rule_name c) as [nm|] eqn:Nm; [|contradiction].
    destruct (exec_profile _ _ _ _ _ _ _ _ _ R E Nm) as (f & F & _). cbn. rewrite F. reflexivity. }
  destruct (c20_privileges _ _ _ _ _ _ _ _ R U E) as ((_ & D) & _). destruct (D U2) as (D1 & D2 & _).
  split; [cbn; rewrite D2; exact U1|]. split; [exact D1|].
  intros r. cbn. destruct (c15_limits _ _ _ _ _ _ _ _ R E r) as [H _]. rewrite H.
  destruct (wanted_limit c r); [cbn; lia|apply L].
Qed.

Lemma c_cpp_confined P : c_cpp_program P -> confined P /\ read_only_opens P.
Proof.
  intros (c & ptr & J & A & N). destruct (judged_facts c ptr P J A) as (F1 & F2 & F3 & _ & F4); [congruence|].
  destruct J as (env & log & k0 & path & a & v & k & R & U & L & E & _ & ->).
  pose proof (c24_c_cpp _ _ _ _ _ _ _ _ R E N) as Per.
  split; constructor; auto.
  - intros sc H. apply Per in H. destruct H as (_ & [H|[[H _]|(fl & H & _)]]); apply in_or_app.
    + left; exact H.
    + right. rewrite H. cbn. tauto.
    + right. unfold open_flags in H. cbn.
      destruct (String.eqb_spec (sc_name sc) "open"); [auto|].
      destruct (String.eqb_spec (sc_name sc) "openat"); [auto|discriminate].
  - intros sc. cbn. destruct (exec_profile _ _ _ _ _ _ _ _ _ R E N) as (f & -> & Pr). rewrite single_filter.
    inversion Pr; subst. apply c_cpp_two_valued.
  - intros sc fl H O. apply Per in H. destruct H as (_ & [H|[[H _]|(fl' & H & Ro)]]).
    + exfalso. unfold open_flags in O.
      destruct (String.eqb_spec (sc_name sc) "open") as [X|_]; [|destruct (String.eqb_spec (sc_name sc) "openat") as [X|_]; [|discriminate]];
        rewrite X in H; apply existsb_In in H; discriminate H.
    + unfold open_flags in O. rewrite H in O. discriminate.
    + congruence.
  - intros sc H I. apply Per in H. destruct H as (_ & [H|[[H _]|(fl' & H & Ro)]]).
    + cbn in I. destruct I as [I|[I|[I|[]]]]; rewrite <- I in H; apply existsb_In in H; discriminate H.
    + rewrite H in I. cbn in I. destruct I as [I|[I|[I|[]]]]; discriminate I.
    + unfold open_flags in H. cbn in I. destruct I as [I|[I|[I|[]]]]; rewrite <- I in H; discriminate H.
Qed.

Lemma file_io_confined P : c_cpp_file_io_program P -> confined P.
Proof.
  intros (c & ptr & J & A & N). destruct (judged_facts c ptr P J A) as (F1 & F2 & F3 & _ & F4); [congruence|].
  destruct J as (env & log & k0 & path & a & v & k & R & U & L & E & _ & ->).
  pose proof (c24_c_cpp_file_io _ _ _ _ _ _ _ _ R E N) as Per.
  constructor; auto.
  - intros sc H. apply Per in H. destruct H as (_ & [H|[[H _]|H]]); apply in_or_app.
    + left; exact H.
    + right. rewrite H. cbn. tauto.
    + right. cbn in *. tauto.
  - intros sc. cbn. destruct (exec_profile _ _ _ _ _ _ _ _ _ R E N) as (f & -> & Pr). rewrite single_filter.
    inversion Pr; subst. apply c_cpp_two_valued.
Qed.

Lemma started_confined w p s : all_started w -> w p = Some s -> exists P, s = inl P /\ confined P.
Proof.
  intros A H. destruct (A p s H) as (P & -> & [C|C]); exists P; (split; [reflexivity|]).
  - apply c_cpp_confined, C.
  - apply file_io_confined, C.
Qed.

(** ** Descriptors *)
Lemma fd_is P n : fd P n = fd_get (p_fds P) n.
Proof. reflexivity. Qed.

Lemma fd_set_get fds n x m : fd_get (fd_set fds n x) m = if Nat.eqb m n then x else fd_get fds m.
Proof.
  unfold fd_get. revert fds m. induction n as [|n IH]; intros fds m.
  - destruct fds as [|y fds]; destruct m as [|m]; cbn; try reflexivity. destruct m; reflexivity.
  - destruct fds as [|y fds]; destruct m as [|m]; cbn [fd_set nth_error Nat.eqb]; try reflexivity.
    + rewrite IH. destruct (Nat.eqb m n); [reflexivity|]. destruct m; reflexivity.
    + apply IH.
Qed.

(** ** The invariant *)
Definition ok_since (P0 P : proc) : Prop :=
  held P0 P /\ p_nnp P = true /\ (read_only_opens P0 -> no_new_outputs P0 P).

Definition inv (w0 w : world) : Prop :=
  forall p, match w p with
            | None => w0 p = None
            | Some (inl P) => exists P0, w0 p = Some (inl P0) /\ ok_since P0 P
            | Some (inr _) => exists P0, w0 p = Some (inl P0)
            end.

Lemma inv_put w0 w p P s : inv w0 w -> w p = Some (inl P) ->
  (forall P0, w0 p = Some (inl P0) -> ok_since P0 P -> match s with inl P' => ok_since P0 P' | inr _ => True end) ->
  inv w0 (put w p s).
Proof.
  intros I H K q. unfold put. destruct (Nat.eqb_spec q p) as [->|N]; [|apply I].
  specialize (I p). rewrite H in I. destruct I as (P0 & I1 & I2). specialize (K P0 I1 I2).
  destruct s; eauto.
Qed.

Lemma res_eqb_eq a b : res_eqb a b = true -> a = b.
Proof. destruct a, b; cbn; congruence. Qed.

(** Membership of a name in a concrete list. *)
Ltac names H := repeat (destruct H as [H|H]; [try discriminate H|]); try contradiction H.

Lemma allowed_modelled P0 sc : confined P0 -> filters_action (p_filters P0) sc = ActAllow -> In (sc_name sc) modelled.
Proof.
  intros C H. apply (cf_calls P0 C) in H. apply in_app_iff in H. unfold modelled. rewrite !in_app_iff.
  destruct H as [H|H]; [left; apply harmless_whitelist, H|right; left; exact H].
Qed.

Lemma allowed_not P0 sc nm : confined P0 -> filters_action (p_filters P0) sc = ActAllow -> sc_name sc = nm ->
  existsb (String.eqb nm) (harmless ++ ["execve"; "open"; "openat"; "dup"; "dup2"; "dup3"]%string) = false -> False.
Proof.
  intros C H E X. apply (cf_calls P0 C) in H. rewrite E in H. apply existsb_In in H. congruence.
Qed.

Lemma step_inv w0 w e w' : (forall p s, w0 p = Some s -> exists P, s = inl P /\ confined P) ->
  inv w0 w -> step w e w' -> inv w0 w'.
Proof.
  intros C0 I St. destruct St as [p P sc w' Hp Ha Ex|p P sc er Hp Ha|p P sc Hp Ha|p P sig Hp].
  - (* a permitted call *)
    assert (exists P0, w0 p = Some (inl P0) /\ ok_since P0 P /\ confined P0 /\
              filters_action (p_filters P0) sc = ActAllow) as (P0 & H0 & Ok & C & Ha0).
    { pose proof (I p) as Ip. rewrite Hp in Ip. destruct Ip as (P0 & H0 & Ok). exists P0.
      destruct (C0 p _ H0) as (P0' & X & C). injection X as <-.
      split; [exact H0|]. split; [exact Ok|]. split; [exact C|]. destruct Ok as ((_ & _ & F & _) & _). congruence. }
    assert (euid (p_cred P) <> 0) as Un.
    { destruct Ok as ((_ & F & _) & _). rewrite F. apply C. }
    destruct Ex as [|flags path id n Hn Hf|old new d Hn Hf|n Hn|q Q r soft hard Hn Hr Hq HQ Hm Hs Hh
                   |fds c Hn Hf Hc|c Hn Hi|Hn|Hn|w' Hn].
    + exact I.
    + (* open *)
      apply (inv_put w0 w p P); [exact I|exact Hp|]. intros P0' X _. assert (P0' = P0) as -> by congruence.
      destruct Ok as ((O1 & O2 & O3 & O4) & O5 & O6). split; [repeat split; auto; apply O4|]. split; [exact O5|].
      intros Ro m d. rewrite fd_is. cbn [p_fds with_fds]. rewrite fd_set_get.
      destruct (Nat.eqb_spec m n) as [->|N].
      * intros X1 Wr. exfalso. injection X1 as <-. cbn in Wr. apply Wr.
        assert (open_flags sc = Some flags) as Of.
        { unfold open_flags. destruct Hn as [[Hn ->]|[Hn ->]]; rewrite Hn; reflexivity. }
        pose proof (ro_open P0 Ro sc flags Ha0 Of) as Rf. unfold read_only, access_mode in Rf. unfold mode_of. rewrite Rf. reflexivity.
      * intros X1 Wr. apply (O6 Ro m d); [rewrite fd_is; exact X1|exact Wr].
    + (* dup *)
      apply (inv_put w0 w p P); [exact I|exact Hp|]. intros P0' X _. assert (P0' = P0) as -> by congruence.
      destruct Ok as ((O1 & O2 & O3 & O4) & O5 & O6). split; [repeat split; auto; apply O4|]. split; [exact O5|].
      intros Ro. exfalso. exact (ro_dup P0 Ro sc Ha0 Hn).
    + (* close *)
      apply (inv_put w0 w p P); [exact I|exact Hp|]. intros P0' X _. assert (P0' = P0) as -> by congruence.
      destruct Ok as ((O1 & O2 & O3 & O4) & O5 & O6). split; [repeat split; auto; apply O4|]. split; [exact O5|].
      intros Ro m d. rewrite fd_is. cbn [p_fds with_fds]. rewrite fd_set_get.
      destruct (Nat.eqb_spec m n) as [->|N]; [discriminate|]. intros X1. apply (O6 Ro m d X1).
    + (* prlimit64 *)
      apply (inv_put w0 w q Q); [exact I|exact HQ|]. intros Q0 X OkQ.
      destruct OkQ as ((O1 & O2 & O3 & O4) & O5 & O6). split; [|split; [exact O5|exact O6]].
      split; [exact O1|]. split; [exact O2|]. split; [exact O3|].
      intros r'. cbn [p_rlim with_rlim]. destruct (res_eqb r r') eqn:Er; [|apply O4].
      apply res_eqb_eq in Er. subst r'. cbn.
      destruct Hh as [Hh|Hh]; [|exfalso; unfold privileged in Hh; apply Z.eqb_eq in Hh; contradiction].
      specialize (O4 r). lia.
    + (* execve *)
      apply (inv_put w0 w p P); [exact I|exact Hp|]. intros P0' X _. assert (P0' = P0) as -> by congruence.
      destruct Ok as ((O1 & O2 & O3 & O4) & O5 & O6). unfold exec_cred in Hc. rewrite O5 in Hc. subst c.
      split; [repeat split; auto; apply O4|]. split; [exact O5|].
      intros Ro m d X1 Wr. apply (O6 Ro m d); [|exact Wr]. rewrite fd_is in *. apply Hf, X1.
    + (* set*id: not permitted *)
      exfalso. unfold set_id_calls in Hn. cbn in Hn.
      repeat (destruct Hn as [Hn|Hn]; [apply (allowed_not P0 sc _ C Ha0 (eq_sym Hn)); reflexivity|]). exact Hn.
    + (* exit_group *)
      apply (inv_put w0 w p P); [exact I|exact Hp|]. intros; exact Logic.I.
    + exfalso. apply (allowed_not P0 sc _ C Ha0 Hn). reflexivity.
    + exfalso. apply Hn, (allowed_modelled P0), Ha0. exact C.
  - exact I.
  - (* a forbidden call *)
    apply (inv_put w0 w p P); [exact I|exact Hp|]. intros P0 X ((O1 & _) & _). unfold killed_thread. rewrite O1. exact Logic.I.
  - apply (inv_put w0 w p P); [exact I|exact Hp|]. intros; exact Logic.I.
Qed.

Lemma runs_inv w0 w evs w' : (forall p s, w0 p = Some s -> exists P, s = inl P /\ confined P) ->
  inv w0 w -> runs w evs w' -> inv w0 w'.
Proof. intros C I R. induction R; [exact I|]. apply IHR. apply (step_inv w0 w e w1); assumption. Qed.

Lemma inv_start w : (forall p s, w p = Some s -> exists P, s = inl P /\ confined P) -> inv w w.
Proof.
  intros C p. destruct (w p) as [s|] eqn:E; [|reflexivity]. destruct (C p s E) as (P & -> & Cf).
  exists P. split; [reflexivity|]. split; [|split; [apply Cf|]].
  - split; [apply Cf|]. split; [reflexivity|]. split; [reflexivity|]. intros r. split; [apply Cf|lia].
  - intros _ n d H _. exists n. exact H.
Qed.

Theorem contained w evs w' : all_started w -> runs w evs w' ->
  (forall p, w p = None <-> w' p = None) /\
  (forall p P, w' p = Some (inl P) -> exists P0, w p = Some (inl P0) /\ held P0 P /\ (c_cpp_program P0 -> no_new_outputs P0 P)).
Proof.
  intros A R. assert (forall p s, w p = Some s -> exists P, s = inl P /\ confined P) as C by (intros; eapply started_confined; eassumption).
  pose proof (runs_inv w w evs w' C (inv_start w C) R) as I. split.
  - intros p. specialize (I p). destruct (w' p) as [[P|e]|] eqn:E.
    + destruct I as (P0 & I & _). split; congruence.
    + destruct I as (P0 & I). split; congruence.
    + split; auto.
  - intros p P E. specialize (I p). rewrite E in I. destruct I as (P0 & H & O1 & _ & O3). exists P0. repeat split; try assumption; try apply O1.
    intros Cc. apply O3, c_cpp_confined, Cc.
Qed.

(** ** How programs end *)
Theorem endings w evs w' : all_started w -> runs w evs w' -> forall p e, w' p = Some (inr e) ->
  (exists sc, In (Calls p sc) evs /\ sc_name sc = "exit_group"%string /\ e = Exited (sc_arg sc 0 mod 256)) \/
  (exists sc P0, In (Calls p sc) evs /\ w p = Some (inl P0) /\ filters_action (p_filters P0) sc = ActKill /\ e = Signaled 31) \/
  (exists sig, In (Hit p sig) evs /\ e = Signaled sig).
Proof.
  intros A R p e. assert (forall p s, w p = Some s -> exists P, s = inl P /\ confined P) as C by (intros; eapply started_confined; eassumption).
  assert (forall v, inv w v -> forall evs v', runs v evs v' -> v' p = Some (inr e) -> v p = Some (inr e) \/
    (exists sc, In (Calls p sc) evs /\ sc_name sc = "exit_group"%string /\ e = Exited (sc_arg sc 0 mod 256)) \/
    (exists sc P0, In (Calls p sc) evs /\ w p = Some (inl P0) /\ filters_action (p_filters P0) sc = ActKill /\ e = Signaled 31) \/
    (exists sig, In (Hit p sig) evs /\ e = Signaled sig)) as K.
  { intros v I evs0 v' Rv. revert I. induction Rv as [|v ev v1 evs0 v2 St Rv IH]; intros I H; [left; exact H|].
    pose proof (step_inv w v ev v1 C I St) as I1.
    destruct (IH I1 H) as [H1|[(sc & H1 & H2)|[(sc & P0 & H1 & H2)|(sig & H1 & H2)]]].
    2: right; left; exists sc; split; [right; exact H1|exact H2].
    2: right; right; left; exists sc, P0; split; [right; exact H1|exact H2].
    2: right; right; right; exists sig; split; [right; exact H1|exact H2].
    destruct St as [p' P sc v1 Hp Ha Ex|p' P sc er Hp Ha|p' P sc Hp Ha|p' P sig Hp].
    - assert (exists P0, w p' = Some (inl P0) /\ confined P0 /\ filters_action (p_filters P0) sc = ActAllow) as (P0 & H0 & Cf & Ha0).
      { pose proof (I p') as Ip. rewrite Hp in Ip. destruct Ip as (P0 & H0 & Ok). exists P0.
        destruct (C p' _ H0) as (P0' & X & Cf). injection X as <-. split; [exact H0|]. split; [exact Cf|].
        destruct Ok as ((_ & _ & F & _) & _). congruence. }
      destruct Ex as [|flags path id n Hn Hf|old new d Hn Hf|n Hn|q Q r soft hard Hn Hr Hq HQ Hm Hs Hh
                     |fds c Hn Hf Hc|c Hn Hi|Hn|Hn|w1 Hn];
        try (left; unfold put in H1; destruct (Nat.eqb p _); [discriminate|exact H1]).
      + left; exact H1.
      + unfold put in H1. destruct (Nat.eqb_spec p p') as [->|N]; [|left; exact H1].
        injection H1 as <-. right; left. exists sc. split; [left; reflexivity|]. split; [exact Hn|reflexivity].
      + exfalso. apply Hn, (allowed_modelled P0 sc Cf Ha0).
    - left; exact H1.
    - unfold put in H1. destruct (Nat.eqb_spec p p') as [->|N]; [|left; exact H1].
      pose proof (I p') as Ip. rewrite Hp in Ip. destruct Ip as (P0 & H0 & Ok).
      destruct Ok as ((O1 & _ & O3 & _) & _). unfold killed_thread in H1. rewrite O1 in H1. cbn in H1. injection H1 as <-.
      right; right; left. exists sc, P0. split; [left; reflexivity|]. split; [exact H0|]. split; [congruence|reflexivity].
    - unfold put in H1. destruct (Nat.eqb_spec p p') as [->|N]; [|left; exact H1]. injection H1 as <-.
      right; right; right. exists sig. split; [left; reflexivity|reflexivity]. }
  intros H. destruct (K w (inv_start w C) evs w' R H) as [X|X]; [|exact X].
  destruct (C p _ X) as (P & Y & _). discriminate.
Qed.

(** A forbidden call ends the whole program. *)
Theorem forbidden_ends w evs w' p P0 P sc : all_started w -> runs w evs w' ->
  w p = Some (inl P0) -> w' p = Some (inl P) -> filters_action (p_filters P0) sc <> ActAllow ->
  exists w'', step w' (Calls p sc) w'' /\
  forall v, step w' (Calls p sc) v -> v p = Some (inr (Signaled 31)) /\ forall q, q <> p -> v q = w' q.
Proof.
  intros A R H0 H N. destruct (contained w evs w' A R) as [_ K]. destruct (K p P H) as (P0' & X & (O1 & _ & O3 & _) & _).
  assert (P0' = P0) as -> by congruence.
  destruct (started_confined w p _ A H0) as (P0' & Y & C). injection Y as <-.
  assert (filters_action (p_filters P) sc = ActKill) as F by (rewrite O3; destruct (cf_two P0 C sc); [contradiction|assumption]).
  exists (put w' p (killed_thread P)). split; [apply step_killed; assumption|].
  intros v St. inversion St; subst; try congruence. assert (P1 = P) as -> by congruence.
  unfold killed_thread. rewrite O1. cbn. unfold put. rewrite Nat.eqb_refl. split; [reflexivity|].
  intros q Nq. destruct (Nat.eqb_spec q p); [contradiction|reflexivity].
Qed.

(** ** Other programs *)

(** What another process can do to [q]: nothing, or lower a limit of a process
    with the same ids. *)
Lemma step_other w0 w e w' q : (forall p s, w0 p = Some s -> exists P, s = inl P /\ confined P) -> inv w0 w ->
  step w e w' -> of_proc q e = false ->
  w' q = w q \/
  exists p P Q r soft hard, p <> q /\ w p = Some (inl P) /\ w q = Some (inl Q) /\ may_limit P Q = true /\
    soft <= hard <= snd (p_rlim Q r) /\ w' q = Some (inl (with_rlim Q r (soft, hard))).
Proof.
  intros C0 I St Of. destruct St as [p P sc w' Hp Ha Ex|p P sc er Hp Ha|p P sc Hp Ha|p P sig Hp]; cbn in Of; apply Nat.eqb_neq in Of.
  2: left; reflexivity.
  2,3: left; unfold put; destruct (Nat.eqb_spec q p); [congruence|reflexivity].
  assert (exists P0, w0 p = Some (inl P0) /\ ok_since P0 P /\ confined P0 /\
              filters_action (p_filters P0) sc = ActAllow) as (P0 & H0 & Ok & C & Ha0).
  { pose proof (I p) as Ip. rewrite Hp in Ip. destruct Ip as (P0 & H0 & Ok). exists P0.
    destruct (C0 p _ H0) as (P0' & X & C). injection X as <-.
    split; [exact H0|]. split; [exact Ok|]. split; [exact C|]. destruct Ok as ((_ & _ & F & _) & _). congruence. }
  destruct Ex as [|flags path id n Hn Hf|old new d Hn Hf|n Hn|q' Q r soft hard Hn Hr Hq HQ Hm Hs Hh
                   |fds c Hn Hf Hc|c Hn Hi|Hn|Hn|w' Hn];
    try (left; unfold put; destruct (Nat.eqb_spec q p); [congruence|reflexivity]).
  - unfold put. destruct (Nat.eqb_spec q q') as [<-|N]; [|left; reflexivity]. right.
    destruct Hm as [Hm|Hm]; [congruence|]. exists p, P, Q, r, soft, hard.
    destruct Hh as [Hh|Hh].
    2:{ exfalso. destruct Ok as ((_ & F & _) & _). unfold privileged in Hh. rewrite F in Hh. apply Z.eqb_eq in Hh.
        exact (cf_user P0 C Hh). }
    split; [congruence|]. split; [exact Hp|]. split; [exact HQ|]. split; [exact Hm|]. split; [lia|reflexivity].
  - exfalso. apply Hn, (allowed_modelled P0), Ha0. exact C.
Qed.

Lemma may_limit_ruid P Q : euid (p_cred P) <> 0 -> may_limit P Q = true -> ruid (p_cred P) = ruid (p_cred Q).
Proof.
  unfold may_limit, privileged. intros N H. apply orb_true_iff in H. destruct H as [H|H]; [apply Z.eqb_eq in H; contradiction|].
  rewrite !andb_true_iff in H. destruct H as (((((H & _) & _) & _) & _) & _). apply Z.eqb_eq, H.
Qed.

(** Same ids: only limits, only downwards. *)
Definition only_limits (Q0 Q : proc) : Prop :=
  p_fds Q = p_fds Q0 /\ p_cred Q = p_cred Q0 /\ p_filters Q = p_filters Q0 /\ p_nnp Q = p_nnp Q0 /\
  p_threads Q = p_threads Q0 /\ forall r, snd (p_rlim Q r) <= snd (p_rlim Q0 r).

Theorem undisturbed_but_limits w evs w' q Q0 : all_started w -> runs w evs w' -> w q = Some (inl Q0) ->
  existsb (of_proc q) evs = false -> exists Q, w' q = Some (inl Q) /\ only_limits Q0 Q.
Proof.
  intros A R. assert (forall p s, w p = Some s -> exists P, s = inl P /\ confined P) as C by (intros; eapply started_confined; eassumption).
  intros H0 E.
  assert (forall v, inv w v -> forall evs v', runs v evs v' -> existsb (of_proc q) evs = false ->
    forall Q1, v q = Some (inl Q1) -> exists Q, v' q = Some (inl Q) /\ only_limits Q1 Q) as K.
  { intros v I evs0 v' Rv. revert I. induction Rv as [v|v e v1 evs0 v2 St Rv IH]; intros I E0 Q1 H1.
    - exists Q1. split; [exact H1|]. repeat split; try reflexivity.
    - cbn in E0. apply orb_false_iff in E0. destruct E0 as [E1 E2].
      pose proof (step_inv w v e v1 C I St) as I1.
      destruct (step_other w v e v1 q C I St E1) as [S1|(p & P & Q & r & soft & hard & _ & _ & S1 & _ & S2 & S3)].
      + apply (IH I1 E2). congruence.
      + assert (Q = Q1) as -> by congruence.
        destruct (IH I1 E2 _ S3) as (Q & X & (L1 & L2 & L3 & L4 & L5 & L6)). exists Q. split; [exact X|].
        cbn in *. repeat split; try assumption. intros r'. specialize (L6 r').
        destruct (res_eqb r r') eqn:Er; [|exact L6]. apply res_eqb_eq in Er. subst r'. cbn in L6. lia. }
  exact (K w (inv_start w C) evs w' R E Q0 H0).
Qed.

(** Different user ids: complete isolation. *)
Lemma put_same w p s : put w p s p = Some s.
Proof. unfold put. rewrite Nat.eqb_refl. reflexivity. Qed.

(** [step] by [q] depends only on [q]'s own state, when it concerns [q] only. *)
Lemma own_step w0 w e w' q u : (forall p s, w0 p = Some s -> exists P, s = inl P /\ confined P) -> inv w0 w ->
  step w e w' -> of_proc q e = true -> u q = w q ->
  exists u', step u e u' /\ u' q = w' q.
Proof.
  intros C0 I St Of Eq. destruct St as [p P sc w' Hp Ha Ex|p P sc er Hp Ha|p P sc Hp Ha|p P sig Hp]; cbn in Of; apply Nat.eqb_eq in Of; subst p.
  - assert (exists P0, confined P0 /\ filters_action (p_filters P0) sc = ActAllow) as (P0 & C & Ha0).
    { pose proof (I q) as Ip. rewrite Hp in Ip. destruct Ip as (P0 & H0 & Ok). exists P0.
      destruct (C0 q _ H0) as (P0' & X & C). injection X as <-. split; [exact C|]. destruct Ok as ((_ & _ & F & _) & _). congruence. }
    rewrite Hp in Eq.
    destruct Ex as [|flags path id n Hn Hf|old new d Hn Hf|n Hn|q' Q r soft hard Hn Hr Hq HQ Hm Hs Hh
                   |fds c Hn Hf Hc|c Hn Hi|Hn|Hn|w' Hn].
    + exists u. split; [|congruence]. eapply step_allowed; [eassumption|exact Ha|apply ex_none].
    + eexists. split; [eapply step_allowed; [eassumption|exact Ha|eapply ex_open; eassumption]|]. rewrite !put_same. reflexivity.
    + eexists. split; [eapply step_allowed; [eassumption|exact Ha|eapply ex_dup; eassumption]|]. rewrite !put_same. reflexivity.
    + eexists. split; [eapply step_allowed; [eassumption|exact Ha|eapply ex_close; eassumption]|]. rewrite !put_same. reflexivity.
    + destruct (Nat.eq_dec q' q) as [->|N].
      * assert (Q = P) as -> by congruence.
        eexists. split; [eapply step_allowed; [eassumption|exact Ha|eapply (ex_prlimit _ _ _ _ q P r soft hard); try eassumption]|].
        rewrite !put_same. reflexivity.
      * exists u. split; [eapply step_allowed; [eassumption|exact Ha|apply ex_none]|].
        unfold put. destruct (Nat.eqb_spec q q'); [congruence|]. congruence.
    + eexists. split; [eapply step_allowed; [eassumption|exact Ha|eapply ex_execve; eassumption]|]. rewrite !put_same. reflexivity.
    + eexists. split; [eapply step_allowed; [eassumption|exact Ha|eapply ex_ids; eassumption]|]. rewrite !put_same. reflexivity.
    + eexists. split; [eapply step_allowed; [eassumption|exact Ha|eapply ex_exit; eassumption]|]. rewrite !put_same. reflexivity.
    + eexists. split; [eapply step_allowed; [eassumption|exact Ha|eapply ex_thread; eassumption]|]. rewrite !put_same. reflexivity.
    + exfalso. apply Hn, (allowed_modelled P0), Ha0. exact C.
  - exists u. split; [|exact Eq]. eapply step_errno; [rewrite Eq; exact Hp|exact Ha].
  - eexists. split; [eapply step_killed; [rewrite Eq; exact Hp|exact Ha]|]. rewrite !put_same. reflexivity.
  - eexists. split; [eapply step_hit; rewrite Eq; exact Hp|]. rewrite !put_same. reflexivity.
Qed.

Theorem isolated w evs w' q : all_started w -> own_user w q -> runs w evs w' ->
  exists u, runs w (List.filter (of_proc q) evs) u /\ u q = w' q.
Proof.
  intros A U R. assert (forall p s, w p = Some s -> exists P, s = inl P /\ confined P) as C by (intros; eapply started_confined; eassumption).
  assert (forall v, inv w v -> forall evs v', runs v evs v' -> forall u, u q = v q ->
    exists u', runs u (List.filter (of_proc q) evs) u' /\ u' q = v' q) as K.
  { intros v I evs0 v' Rv. revert I. induction Rv as [v|v e v1 evs0 v2 St Rv IH]; intros I u Eq.
    - exists u. split; [apply runs_nil|exact Eq].
    - pose proof (step_inv w v e v1 C I St) as I1. cbn [List.filter]. destruct (of_proc q e) eqn:Of.
      + destruct (own_step w v e v1 q u C I St Of Eq) as (u1 & S1 & E1). destruct (IH I1 u1 E1) as (u' & R' & E').
        exists u'. split; [econstructor; eassumption|exact E'].
      + apply (IH I1). rewrite Eq. destruct (step_other w v e v1 q C I St Of) as [S1|(p & P & Q & r & soft & hard & N & Sp & Sq & M & _ & _)]; [congruence|].
        exfalso. pose proof (I p) as Ip. rewrite Sp in Ip. destruct Ip as (P0 & Hp0 & OkP).
        pose proof (I q) as Iq. rewrite Sq in Iq. destruct Iq as (Q0 & Hq0 & OkQ).
        destruct OkP as ((_ & Cp & _) & _). destruct OkQ as ((_ & Cq & _) & _).
        apply (U p P0 Q0 Hp0 Hq0 N). rewrite <- Cp, <- Cq. apply may_limit_ruid; [|exact M].
        rewrite Cp. destruct (C p _ Hp0) as (P0' & X & Cf). injection X as <-. apply Cf. }
  exact (K w (inv_start w C) evs w' R w eq_refl).
Qed.

(** ** Identity under any profile, through the modelled calls *)
Definition ids_are (u g : Z) (gs : list Z) (c : cred) : Prop :=
  ruid c = u /\ euid c = u /\ suid c = u /\ rgid c = g /\ egid c = g /\ sgid c = g /\ groups c = gs.

Lemma step_ids w e w' p P P' u g gs : u <> 0 ->
  step w e w' -> (forall q sc, e = Calls q sc -> In (sc_name sc) modelled) ->
  w p = Some (inl P) -> p_nnp P = true -> ids_are u g gs (p_cred P) -> w' p = Some (inl P') ->
  p_nnp P' = true /\ ids_are u g gs (p_cred P').
Proof.
  intros U0 St M Hp N D H'.
  destruct St as [q Q sc w' Hq Ha Ex|q Q sc er Hq Ha|q Q sc Hq Ha|q Q sig Hq].
  - specialize (M q sc eq_refl).
    destruct Ex as [|flags path id n Hn Hf|old new d Hn Hf|n Hn|q' Q' r soft hard Hn Hr Hq' HQ Hm Hs Hh
                   |fds c Hn Hf Hc|c Hn Hi|Hn|Hn|w' Hn]; try contradiction; unfold put in H';
      try match type of H' with (if Nat.eqb p ?x then _ else _) = _ => destruct (Nat.eqb_spec p x) as [E|_] end;
      try (assert (P' = P) as -> by congruence; split; assumption); try discriminate H';
      injection H' as <-; cbn; subst.
    + assert (Q = P) as -> by congruence. split; assumption.
    + assert (Q = P) as -> by congruence. split; assumption.
    + assert (Q = P) as -> by congruence. split; assumption.
    + assert (Q' = P) as -> by congruence. split; assumption.
    + assert (Q = P) as -> by congruence. unfold exec_cred in Hc. rewrite N in Hc. subst c. split; assumption.
    + assert (Q = P) as -> by congruence. split; [exact N|].
      destruct D as (D1 & D2 & D3 & D4 & D5 & D6 & D7). destruct Hi as (G & [X|[X Y]]).
      { unfold privileged in X. apply Z.eqb_eq in X. congruence. }
      rewrite D1, D2, D3 in X. rewrite D4, D5, D6 in Y.
      assert (forall x, In x [ruid c; euid c; suid c] -> x = u) as X' by (intros x I; specialize (X x I); cbn in X; intuition congruence).
      assert (forall x, In x [rgid c; egid c; sgid c] -> x = g) as Y' by (intros x I; specialize (Y x I); cbn in Y; intuition congruence).
      unfold ids_are. cbn in X', Y'. rewrite G. repeat split; auto 10.
    + assert (Q = P) as -> by congruence. split; assumption.
  - assert (P' = P) as -> by congruence. split; assumption.
  - unfold put in H'. destruct (Nat.eqb_spec p q) as [->|_]; [|assert (P' = P) as -> by congruence; split; assumption].
    assert (Q = P) as -> by congruence. unfold killed_thread in H'. destruct (Nat.leb (p_threads P) 1); [discriminate|].
    injection H' as <-. split; assumption.
  - unfold put in H'. destruct (Nat.eqb_spec p q) as [->|_]; [discriminate|]. assert (P' = P) as -> by congruence. split; assumption.
Qed.

Lemma step_was w e w' p P' : step w e w' -> (forall q sc, e = Calls q sc -> In (sc_name sc) modelled) ->
  w' p = Some (inl P') -> exists P, w p = Some (inl P).
Proof.
  intros St M H'.
  destruct St as [q Q sc w' Hq Ha Ex|q Q sc er Hq Ha|q Q sc Hq Ha|q Q sig Hq].
  - specialize (M q sc eq_refl).
    destruct Ex; try contradiction; unfold put in H';
      try match type of H' with (if Nat.eqb p ?x then _ else _) = _ => destruct (Nat.eqb_spec p x) as [->|_] end; eauto.
  - eauto.
  - unfold put in H'. destruct (Nat.eqb_spec p q) as [->|_]; eauto.
  - unfold put in H'. destruct (Nat.eqb_spec p q) as [->|_]; eauto.
Qed.

Lemma runs_ids w evs w' p u g gs : u <> 0 -> runs w evs w' -> (forall q sc, In (Calls q sc) evs -> In (sc_name sc) modelled) ->
  forall P P', w p = Some (inl P) -> p_nnp P = true -> ids_are u g gs (p_cred P) -> w' p = Some (inl P') ->
  ids_are u g gs (p_cred P').
Proof.
  intros U0 R. induction R as [w|w e w1 evs w2 St R IH]; intros M P P' Hp N D H'.
  - assert (P' = P) as -> by congruence. exact D.
  - assert (exists P1, w1 p = Some (inl P1)) as (P1 & H1).
    { assert (forall q sc, In (Calls q sc) evs -> In (sc_name sc) modelled) as M1 by (intros; eapply M; right; eassumption).
      clear -R M1 H'. revert P' H'. induction R as [w|w e w1 evs w2 St R IH]; intros P' H'; [eauto|].
      destruct (IH (fun q sc H => M1 q sc (or_intror H)) P' H') as (P1 & H1).
      eapply step_was; [exact St| |exact H1]. intros; subst. eapply M1. left; reflexivity. }
    destruct (step_ids w e w1 p P P1 u g gs U0 St) as (N1 & D1); try assumption.
    { intros; subst. eapply M. left; reflexivity. }
    eapply IH; try eassumption. intros; eapply M; right; eassumption.
Qed.

Theorem never_root_again c ptr w evs w' p P0 P : judged c ptr P0 -> as_user c -> seccomp_rule_name c <> None ->
  (forall q sc, In (Calls q sc) evs -> In (sc_name sc) modelled) ->
  runs w evs w' -> w p = Some (inl P0) -> w' p = Some (inl P) ->
  p_cred P = mkCred (uid c) (uid c) (uid c) (gid c) (gid c) (gid c) [gid c].
Proof.
  intros J (A1 & A2 & A3) N M R H0 H.
  destruct (judged_facts c ptr P0 J (conj A1 (conj A2 A3)) N) as (_ & F2 & _).
  destruct J as (env & log & k0 & path & a & v & k & Rd & U & L & E & _ & ->).
  destruct (c20_privileges _ _ _ _ _ _ _ _ Rd U E) as ((Dg & Du) & _). destruct (Du A2) as (D1 & D2 & D3).
  destruct (Dg A3) as (D4 & D5 & D6 & D7).
  destruct (runs_ids w evs w' p (uid c) (gid c) [gid c] A1 R M _ P H0 F2) as (I1 & I2 & I3 & I4 & I5 & I6 & I7); [|exact H|].
  { repeat split; assumption. }
  destruct (p_cred P). cbn in *. congruence.
Qed.
