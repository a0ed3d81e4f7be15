(** Symbolic execution of child_process for all oracles. *)
From Coq Require Import ZArith Bool List String Lia Arith.
From Verif.Base Require Import CInt CStr.
From Verif.Model Require Import Config Runner Seccomp Child.
From Verif.Spec Require Import Syscalls SandboxSpec RunSpec Verdict.
From Verif.Proofs Require Import SeccompProofs.
Import ListNotations.
Open Scope list_scope.
Open Scope Z_scope.

(** ** Descriptor table *)

Lemma fd_get_set fds : forall n m x,
  fd_get (fd_set fds n x) m = if Nat.eqb n m then x else fd_get fds m.
Proof.
  unfold fd_get. induction fds as [|y fds IH].
  - induction n as [|n IHn]; intros m x; destruct m as [|m]; simpl; try reflexivity.
    + destruct m; reflexivity.
    + rewrite IHn. destruct (Nat.eqb n m); [reflexivity|]. destruct m; reflexivity.
  - intros n m x. destruct n, m; simpl; try reflexivity. apply IH.
Qed.

Lemma fd_get_lowest fds : fd_get fds (lowest_free fds) = None.
Proof.
  unfold fd_get. induction fds as [|[y|] fds IH]; simpl; [reflexivity|apply IH|reflexivity].
Qed.

Lemma descriptor_fd_get k n : descriptor k n = fd_get (k_fds k) n.
Proof. reflexivity. Qed.

(** ** Weakest preconditions *)

Definition wp {A} (m : M A) (Q : A -> kstate -> Prop) (E : child_end -> Prop) (k : kstate) : Prop :=
  match m k with Go a k' => Q a k' | Stop e => E e end.

Lemma wp_bind {A B} (m : M A) (f : A -> M B) Q E k :
  wp m (fun a k' => wp (f a) Q E k') E k -> wp (bind m f) Q E k.
Proof. unfold wp, bind. destruct (m k); auto. Qed.

Lemma wp_ret {A} (a : A) (Q : A -> kstate -> Prop) E k : Q a k -> wp (ret a) Q E k.
Proof. auto. Qed.

Lemma wp_conseq {A} (m : M A) (Q Q' : A -> kstate -> Prop) (E E' : child_end -> Prop) k :
  wp m Q E k -> (forall a k', Q a k' -> Q' a k') -> (forall e, E e -> E' e) -> wp m Q' E' k.
Proof. unfold wp. destruct (m k); auto. Qed.

Definition bump (k : kstate) : kstate :=
  mkK (k_fds k) (k_next k) (k_rlim k) (k_cred k) (k_filter k) (S (k_calls k)) (k_trace k).

Lemma wp_call env sc (Q : bool -> kstate -> Prop) (E : child_end -> Prop) k :
  (filters_action (k_filter k) sc = ActKill -> E (CKilled SIGSYS (bump k))) ->
  (forall b, (filters_action (k_filter k) sc = ActAllow -> b = ce_ok env (k_calls k)) -> Q b (bump k)) ->
  wp (call env sc) Q E k.
Proof.
  intros H1 H2. unfold wp, call. fold (bump k).
  destruct (filters_action (k_filter k) sc) eqn:F; [apply H2; auto|apply H1; auto|apply H2; discriminate].
Qed.

(** Without filter nothing is killed. *)
Lemma wp_call0 env sc (Q : bool -> kstate -> Prop) (E : child_end -> Prop) k :
  k_filter k = [] -> Q (ce_ok env (k_calls k)) (bump k) -> wp (call env sc) Q E k.
Proof.
  intros F H. unfold wp, call. fold (bump k). rewrite F. exact H.
Qed.

Lemma wp_emit ev (Q : unit -> kstate -> Prop) (E : child_end -> Prop) k :
  Q tt (mkK (k_fds k) (k_next k) (k_rlim k) (k_cred k) (k_filter k) (k_calls k) (k_trace k ++ [ev])) ->
  wp (emit ev) Q E k.
Proof. auto. Qed.

(** ** Opened and closed streams *)

Lemma closed_app a b : closed (a ++ b) = closed a ++ closed b.
Proof. apply flat_map_app. Qed.
Lemma opened_app a b : opened (a ++ b) = opened a ++ opened b.
Proof. apply flat_map_app. Qed.
Lemma closed_ids_eq tr : closed_ids tr = closed tr.
Proof. induction tr as [|[] tr IH]; simpl; try assumption; try reflexivity. f_equal; assumption. Qed.

Lemma existsb_nat_In x l : existsb (Nat.eqb x) l = true <-> In x l.
Proof.
  rewrite existsb_exists. split.
  - intros (y & H & E). apply Nat.eqb_eq in E. subst; assumption.
  - intros H. exists x. split; [assumption|apply Nat.eqb_refl].
Qed.

Lemma NoDup_app_l {A} (l1 l2 : list A) : NoDup (l1 ++ l2) -> NoDup l1.
Proof.
  induction l1 as [|x l1 IH]; simpl; intros H; [constructor|].
  inversion H as [|? ? H1 H2]; subst. constructor; [|apply IH; assumption].
  intros X. apply H1. apply in_or_app. left; assumption.
Qed.

Definition sids (l : list (option stream)) : list nat :=
  flat_map (fun o => match o with Some f => [s_id f] | None => [] end) l.

(** The streams that the error path will close. *)
Definition to_close (i o e : option stream) : list nat :=
  if same_stream o e then sids [i; o] else sids [i; o; e].

(** Invariant: closed streams are distinct, were opened, and are not among [ids]. *)
Definition files_inv (k : kstate) (ids : list nat) : Prop :=
  NoDup (closed (k_trace k) ++ ids) /\ incl (closed (k_trace k) ++ ids) (opened (k_trace k)).

Definition filter_state (env : child_env) (c : config) (k : kstate) : Prop :=
  k_filter k = [] \/
  exists f, k_filter k = [f] /\
    select_filter (ce_seccomp_ok env) (ce_has_execveat env) (ce_exe_ptr env) (seccomp_rule_name c)
    = Some (Some f).

(** The five filters. *)
Inductive profile (known : bool) (p : Z) : str -> filter -> Prop :=
| PCcpp : profile known p (lit "c_cpp") (c_cpp_f p false)
| PCcppIo : profile known p (lit "c_cpp_file_io") (c_cpp_f p true)
| PGeneral : profile known p (lit "general") (general_f known p)
| PGolang : profile known p (lit "golang") (golang_f known)
| PNode : profile known p (lit "node") (node_f known).

Lemma select_filter_some ok known p name r :
  select_filter ok known p name = Some r ->
  match name, r with
  | None, None => True
  | Some nm, Some f => profile known p nm f /\
      forall i, (i <= S (List.length (f_rules f)))%nat -> ok i = true
  | _, _ => False
  end.
Proof.
  unfold select_filter. destruct name as [nm|]; [|intros E; injection E as <-; exact I].
  destruct (str_eqb (lit "c_cpp") nm) eqn:E1.
  { apply str_eqb_eq in E1. subst nm. unfold c_cpp_seccomp_rules, c_cpp_seccomp_rules_.
    destruct (load_filter _ _ _) eqn:L; [|discriminate]. apply load_filter_some in L.
    destruct L as [-> L]. intros E; injection E as <-. split; [constructor|exact L]. }
  destruct (str_eqb (lit "c_cpp_file_io") nm) eqn:E2.
  { apply str_eqb_eq in E2. subst nm. unfold c_cpp_file_io_seccomp_rules, c_cpp_seccomp_rules_.
    destruct (load_filter _ _ _) eqn:L; [|discriminate]. apply load_filter_some in L.
    destruct L as [-> L]. intros E; injection E as <-. split; [constructor|exact L]. }
  destruct (str_eqb (lit "general") nm) eqn:E3.
  { apply str_eqb_eq in E3. subst nm. unfold general_seccomp_rules.
    destruct (load_filter _ _ _) eqn:L; [|discriminate]. apply load_filter_some in L.
    destruct L as [-> L]. intros E; injection E as <-. split; [constructor|exact L]. }
  destruct (str_eqb (lit "golang") nm) eqn:E4.
  { apply str_eqb_eq in E4. subst nm. unfold golang_seccomp_rules.
    destruct (load_filter _ _ _) eqn:L; [|discriminate]. apply load_filter_some in L.
    destruct L as [-> L]. intros E; injection E as <-. split; [constructor|exact L]. }
  destruct (str_eqb (lit "node") nm) eqn:E5; [|discriminate].
  apply str_eqb_eq in E5. subst nm. unfold node_seccomp_rules.
  destruct (load_filter _ _ _) eqn:L; [|discriminate]. apply load_filter_some in L.
  destruct L as [-> L]. intros E; injection E as <-. split; [constructor|exact L].
Qed.

(** No profile makes tgkill fail with an errno. *)
Lemma profile_tgkill known p nm f e : profile known p nm f -> filter_action f (sys0 "tgkill") <> ActErrno e.
Proof.
  intros H E. destruct H.
  - destruct (c_cpp_two_valued p false (sys0 "tgkill")); congruence.
  - destruct (c_cpp_two_valued p true (sys0 "tgkill")); congruence.
  - destruct known; cbn in E; discriminate.
  - destruct known; cbn in E; discriminate.
  - destruct known; cbn in E; discriminate.
Qed.

(** ** The failure path *)
Section Err.
Variable env : child_env.
Variable c : config.

Lemma ec_name nm : In nm ["write"; "flock"; "close"; "tgkill"]%string -> error_call env (sys0 nm).
Proof. intros H. right. exists nm. split; [assumption|reflexivity]. Qed.

(** How a process that failed to become the program ends. *)
Definition failure_end (k0 : kstate) (e : child_end) : Prop :=
  match e with
  | CExec _ _ _ _ | CUB => False
  | CKilled s k =>
      NoDup (closed (k_trace k)) /\ incl (closed (k_trace k)) (opened (k_trace k)) /\
      k_rlim k = k_rlim k0 /\ k_filter k = k_filter k0 /\
      ((s = SIGUSR1 /\ ce_usr1_default env = true /\
        filters_action (k_filter k) (sys0 "tgkill") <> ActKill) \/
       (s = SIGXFSZ /\ ce_xfsz_default env = true /\ log_over_limit env k /\
        filters_action (k_filter k) (sys0 "flock") <> ActKill) \/
       (s = SIGSYS /\ exists sc, error_call env sc /\ filters_action (k_filter k) sc = ActKill))
  | CExit n k =>
      NoDup (closed (k_trace k)) /\ incl (closed (k_trace k)) (opened (k_trace k)) /\
      k_rlim k = k_rlim k0 /\ k_filter k = k_filter k0 /\
      n = 1 /\ ce_usr1_default env = false /\
      filters_action (k_filter k) (sys0 "tgkill") <> ActKill
  end.

Definition fail_inv (k0 k : kstate) (ids : list nat) : Prop :=
  filter_state env c k /\ k_rlim k = k_rlim k0 /\ k_filter k = k_filter k0 /\ files_inv k ids.

Lemma fail_inv_sys k0 k ids : fail_inv k0 k ids -> forall sc, error_call env sc ->
  filters_action (k_filter k) sc = ActKill -> failure_end k0 (CKilled SIGSYS (bump k)).
Proof.
  intros (H1 & H2 & H3 & N & I) sc HE HK. cbn [failure_end bump k_trace k_rlim k_filter]. split; [|split; [|split; [|split]]]; try assumption.
  - eapply NoDup_app_l; eassumption.
  - intros x Hx. apply I. apply in_or_app. left; assumption.
  - right; right. split; [reflexivity|]. exists sc. split; assumption.
Qed.

Lemma fail_inv_bump k0 k ids : fail_inv k0 k ids -> fail_inv k0 (bump k) ids.
Proof. intros H; exact H. Qed.

Lemma wp_call_fail k0 sc ids k (Q : bool -> kstate -> Prop) :
  fail_inv k0 k ids -> error_call env sc ->
  (forall b, filters_action (k_filter k) sc <> ActKill -> Q b (bump k)) ->
  wp (call env sc) Q (failure_end k0) k.
Proof.
  intros H HE HQ. pose proof (fail_inv_sys _ _ _ H _ HE) as HK. unfold wp, call. fold (bump k).
  destruct (filters_action (k_filter k) sc) eqn:F; [apply HQ; congruence|apply HK; reflexivity|apply HQ; congruence].
Qed.

Ltac ec := apply ec_name; cbn; auto.

Lemma wp_stderr k0 ids k (Q : unit -> kstate -> Prop) :
  fail_inv k0 k ids -> (forall k', fail_inv k0 k' ids -> Q tt k') ->
  wp (stderr_write env) Q (failure_end k0) k.
Proof.
  intros H HQ. apply wp_bind. eapply wp_call_fail; [exact H|ec|]. intros b _. apply wp_ret. apply HQ. exact H.
Qed.

Lemma wp_calls k0 ids l : incl l (ce_libc_calls env) -> forall k (Q : unit -> kstate -> Prop),
  fail_inv k0 k ids -> (forall k', fail_inv k0 k' ids -> Q tt k') ->
  wp (calls env l) Q (failure_end k0) k.
Proof.
  induction l as [|sc l IH]; intros HI k Q H HQ; simpl.
  - apply wp_ret. apply HQ, H.
  - apply wp_bind. eapply wp_call_fail; [exact H|left; apply HI; left; reflexivity|].
    intros b _. apply IH; [intros x Hx; apply HI; right; assumption|exact H|exact HQ].
Qed.

Lemma wp_log k0 ids log code k (Q : unit -> kstate -> Prop) :
  fail_inv k0 k ids -> (forall k', fail_inv k0 k' ids -> Q tt k') ->
  wp (child_log_write env log code) Q (failure_end k0) k.
Proof.
  intros H HQ. unfold child_log_write. destruct log as [f|]; [|eapply wp_stderr; eassumption].
  apply wp_bind. eapply wp_calls; [apply incl_refl|exact H|]. clear k H. intros k H.
  apply wp_bind. eapply wp_call_fail; [exact H|ec|]. intros b HFl.
  destruct (negb b); [eapply wp_stderr; [exact H|exact HQ]|].
  apply wp_bind. eapply wp_call_fail; [apply fail_inv_bump; exact H|ec|]. intros w _.
  apply wp_bind. unfold wp at 1, get.
  destruct (fd_get (k_fds (bump (bump k))) (s_fd f)) as [o|]; [|eapply wp_stderr; [exact H|exact HQ]].
  destruct (of_mode o); [eapply wp_stderr; [exact H|exact HQ]| | |].
  all: destruct (Nat.eqb (of_id o) (s_id f) && ce_log_regular env
                 && (fst (k_rlim (bump (bump k)) RFsize) <=? ce_log_size env)) eqn:L;
    [apply andb_true_iff in L; destruct L as [L1 L2]; apply andb_true_iff in L1; destruct L1 as [_ L1];
     destruct (ce_xfsz_default env) eqn:X;
     [|eapply wp_stderr; [exact H|exact HQ]]
    |].
  all: try (destruct w; [|eapply wp_stderr; [exact H|exact HQ]]).
  all: try (apply wp_bind; apply wp_emit; apply wp_bind;
    match goal with |- wp _ _ _ ?k1 => assert (fail_inv k0 k1 ids) as H' end;
    [destruct H as (H1 & H2 & H3 & N & I); split; [exact H1|split; [exact H2|split; [exact H3|]]];
     split; cbn; rewrite closed_app; [|rewrite opened_app]; rewrite ?app_nil_r; assumption|];
    eapply wp_call_fail; [exact H'|ec|]; intros b' _; apply wp_ret; apply HQ; exact H').
  all: unfold wp; cbn [failure_end bump k_trace k_rlim k_filter]; destruct H as (H1 & H2 & H3 & N & I); split; [|split; [|split; [|split]]];
    [eapply NoDup_app_l; eassumption
    |intros x Hx; apply I; apply in_or_app; left; assumption
    |assumption|assumption
    |right; left; split; [reflexivity|]; split; [assumption|]; split; [split; [assumption|apply Z.leb_le; assumption]|exact HFl]].
Qed.

Lemma wp_fclose k0 f ids k (Q : unit -> kstate -> Prop) :
  fail_inv k0 k (s_id f :: ids) -> (forall k', fail_inv k0 k' ids -> Q tt k') ->
  wp (fclose env f) Q (failure_end k0) k.
Proof.
  intros H HQ. apply wp_bind. unfold wp at 1, get.
  destruct (existsb (Nat.eqb (s_id f)) (closed_ids (k_trace k))) eqn:E.
  { exfalso. apply existsb_nat_In in E. rewrite closed_ids_eq in E.
    destruct H as (_ & _ & _ & N & _). apply NoDup_remove_2 in N. apply N. apply in_or_app. left; assumption. }
  apply wp_bind. eapply wp_call_fail; [exact H|ec|]. intros b _.
  unfold wp, bind, set_fds, emit. apply HQ. cbn.
  destruct H as (H1 & H2 & H3 & N & I). split; [exact H1|split; [exact H2|split; [exact H3|]]].
  split; cbn; rewrite closed_app; [|rewrite opened_app]; cbn [closed opened flat_map app]; rewrite ?app_nil_r.
  - rewrite <- app_assoc. exact N.
  - rewrite <- app_assoc. exact I.
Qed.

Lemma wp_close k0 f ids k (Q : unit -> kstate -> Prop) :
  fail_inv k0 k (sids [f] ++ ids) -> (forall k', fail_inv k0 k' ids -> Q tt k') ->
  wp (close_file env f) Q (failure_end k0) k.
Proof.
  intros H HQ. destruct f as [f|]; simpl in *.
  - eapply wp_fclose; eassumption.
  - apply wp_ret. apply HQ, H.
Qed.

Lemma wp_raise k0 k Q : fail_inv k0 k [] -> wp (raise_and_exit env) Q (failure_end k0) k.
Proof.
  intros H. apply wp_bind. unfold wp at 1, call_sure. fold (bump k).
  assert (NoDup (closed (k_trace k)) /\ incl (closed (k_trace k)) (opened (k_trace k))) as [N I].
  { destruct H as (_ & _ & _ & N & I). rewrite app_nil_r in *. split; assumption. }
  destruct (filters_action (k_filter k) (sys0 "tgkill")) eqn:F.
  - unfold wp. destruct (ce_usr1_default env) eqn:U; cbn [andb failure_end bump k_trace k_rlim k_filter].
    + destruct H as (_ & H2 & H3 & _). split; [|split; [|split; [|split]]]; try assumption. left. split; [reflexivity|]. split; [assumption|congruence].
    + destruct H as (_ & H2 & H3 & _). split; [|split; [|split; [|split]]]; try assumption. split; [reflexivity|]. split; [assumption|congruence].
  - apply (fail_inv_sys _ _ _ H (sys0 "tgkill")); [ec|exact F].
  - exfalso. destruct H as (H1 & _). destruct H1 as [H1|(f & H1 & H2)]; rewrite H1 in F; [discriminate|].
    apply select_filter_some in H2. destruct (seccomp_rule_name c); [|contradiction].
    pose proof (profile_tgkill _ _ _ _ e (proj1 H2)). cbn [filters_action] in F.
    destruct (filter_action f (sys0 "tgkill")); congruence.
Qed.

Lemma wp_error_exit {A} log i o e code k (Q : A -> kstate -> Prop) :
  filter_state env c k -> files_inv k (to_close i o e) ->
  wp (child_error_exit env log i o e code) Q (failure_end k) k.
Proof.
  intros HF HI. unfold child_error_exit.
  assert (fail_inv k k (sids [i] ++ (if same_stream o e then sids [o] ++ [] else sids [o] ++ sids [e] ++ []))) as H.
  { split; [assumption|]. split; [reflexivity|]. split; [reflexivity|].
    unfold to_close in HI. destruct (same_stream o e); unfold sids in *; simpl in *;
      rewrite ?app_nil_r, ?app_assoc in *; exact HI. }
  apply wp_bind. eapply wp_log; [exact H|]. clear H HF HI. intros k1 H.
  apply wp_bind. eapply wp_close; [exact H|]. clear k1 H. intros k1 H.
  apply wp_bind. destruct (same_stream o e).
  - eapply wp_close; [exact H|]. clear k1 H. intros k1 H. apply wp_bind. apply wp_raise. exact H.
  - apply wp_bind. eapply wp_close; [exact H|]. clear k1 H. intros k1 H.
    eapply wp_close; [exact H|]. clear k1 H. intros k1 H. apply wp_bind. apply wp_raise. exact H.
Qed.
End Err.
