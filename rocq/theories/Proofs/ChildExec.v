(** What holds when the program starts, and all other ends of child_process. *)
From Coq Require Import ZArith Bool List String Lia Arith.
From Verif.Base Require Import CInt CStr.
From Verif.Model Require Import Config Runner Seccomp Child.
From Verif.Spec Require Import Syscalls SandboxSpec RunSpec Verdict.
From Verif.Proofs Require Import SeccompProofs ChildProofs.
Import ListNotations.
Open Scope list_scope.
Open Scope Z_scope.

Arguments closed : simpl never.
Arguments opened : simpl never.

Section Exec.
Variable env : child_env.
Variable c : config.
Variable log : option stream.
Variable k0 : kstate.
Hypothesis typed : config_typed c.
Hypothesis accepted : limits_accepted c.
Hypothesis cpu_fits : max_cpu_time c <= INT_MAX - 1000.
Hypothesis start : forked k0.

(** A description opened for one of the redirections. *)
Definition origin (o : ofile) : Prop :=
  (k_next k0 <= of_id o)%nat /\
  ((input_path c = Some (of_path o) /\ of_mode o = MRead) \/
   ((output_path c = Some (of_path o) \/ error_path c = Some (of_path o)) /\ of_mode o = MWrite)).

Definition limits_installed (k : kstate) : Prop :=
  forall r, k_rlim k r = match wanted_limit c r with Some v => (v, v) | None => k_rlim k0 r end.

Definition filter_loaded (k : kstate) : Prop :=
  match seccomp_rule_name c with
  | None => k_filter k = []
  | Some nm => exists f, k_filter k = [f] /\ profile (ce_has_execveat env) (ce_exe_ptr env) nm f /\
      forall i, (i <= S (List.length (f_rules f)))%nat -> ce_seccomp_ok env i = true
  end.

Definition std_streams (k : kstate) : Prop :=
  (forall p, input_path c = Some p -> redirected k0 k 0 p MRead) /\
  (forall p, output_path c = Some p -> redirected k0 k 1 p MWrite) /\
  (forall p, error_path c = Some p -> redirected k0 k 2 p MWrite) /\
  (forall p q, output_path c = Some p -> error_path c = Some q ->
     forall o1 o2, descriptor k 1 = Some o1 -> descriptor k 2 = Some o2 ->
     (of_id o1 = of_id o2 <-> p = q)).

Definition fd_frame (k : kstate) : Prop :=
  (forall n o, (3 <= n)%nat -> descriptor k0 n = Some o -> descriptor k n = Some o) /\
  (forall n o, descriptor k n = Some o -> descriptor k0 n = Some o \/ origin o).

Definition cred_frame (k : kstate) : Prop :=
  euid (k_cred k0) = 0 ->
  dropped c k /\
  (gid c = keep_id -> rgid (k_cred k) = rgid (k_cred k0) /\ egid (k_cred k) = egid (k_cred k0) /\
     sgid (k_cred k) = sgid (k_cred k0) /\ groups (k_cred k) = groups (k_cred k0)) /\
  (uid c = keep_id -> ruid (k_cred k) = ruid (k_cred k0) /\ euid (k_cred k) = euid (k_cred k0) /\
     suid (k_cred k) = suid (k_cred k0)).

Definition exec_post (p : str) (a v : list cell) (k : kstate) : Prop :=
  (p = exe_path c /\ a = args c /\ v = Config.env c) /\
  flat_map performed (k_trace k) = sandbox_script c /\
  limits_installed k /\ std_streams k /\ fd_frame k /\ cred_frame k /\ filter_loaded k /\
  closed (k_trace k) = [].

Definition reached (k : kstate) : Prop :=
  (k_rlim k RFsize = k_rlim k0 RFsize \/
   exists v, wanted_limit c RFsize = Some v /\ k_rlim k RFsize = (v, v)) /\
  (k_filter k = [] \/ (seccomp_rule_name c <> None /\ filter_loaded k)).

Definition final (e : child_end) : Prop :=
  match e with
  | CExec p a v k => exec_post p a v k
  | _ => exists kf, reached kf /\ failure_end env kf e
  end.

Lemma wp_fail {A} i o e code k (Q : A -> kstate -> Prop) :
  reached k -> filter_state env c k -> files_inv k (to_close i o e) ->
  wp (child_error_exit env log i o e code) Q final k.
Proof.
  intros R F I. eapply wp_conseq; [apply wp_error_exit with (c := c) (Q := Q); assumption|auto|].
  intros e' H. destruct e' as [p a v k'|s k'|n k'|]; cbn; try (exists k; split; assumption).
  cbn in H. contradiction.
Qed.

(** ** Resource limits *)

Definition quiet (k : kstate) : Prop :=
  k_fds k = k_fds k0 /\ k_next k = k_next k0 /\ k_cred k = k_cred k0 /\ k_filter k = [] /\
  closed (k_trace k) = [] /\ opened (k_trace k) = [].

Lemma quiet_fail {A} k code (Q : A -> kstate -> Prop) :
  quiet k -> k_rlim k RFsize = k_rlim k0 RFsize ->
  wp (child_error_exit env log None None None code) Q final (bump k).
Proof.
  intros (_ & _ & _ & F & C & O) R. apply wp_fail.
  - split; [left; exact R|left; exact F].
  - left; exact F.
  - unfold files_inv, to_close. cbn. rewrite C, O. cbn. split; [constructor|intros x []].
Qed.

Definition with_limit (r : resource) (w : option Z) (k k' : kstate) : Prop :=
  quiet k' /\
  (forall r', k_rlim k' r' = match w with
                             | Some z => if res_eqb r r' then (z, z) else k_rlim k r'
                             | None => k_rlim k r'
                             end) /\
  flat_map performed (k_trace k')
  = flat_map performed (k_trace k) ++ match w with Some z => [SLimit r z] | None => [] end.

Lemma limit_block_wp {A} r w active v (K : M A) k (Q : A -> kstate -> Prop) :
  quiet k -> k_rlim k RFsize = k_rlim k0 RFsize ->
  (match w with Some z => active = true /\ v = Val z | None => active = false end) ->
  (forall k', with_limit r w k k' -> wp K Q final k') ->
  wp (limit_block env log active r v K) Q final k.
Proof.
  intros Hq Hr Hw HK. unfold limit_block. destruct w as [z|].
  - destruct Hw as [-> ->]. apply wp_bind. apply wp_bind.
    apply wp_call0; [apply Hq|].
    destruct (ce_ok env (k_calls k)).
    + unfold wp at 1, bind, emit, ret. cbn. apply HK.
      destruct Hq as (H1 & H2 & H3 & H4 & H5 & H6).
      split; [|split].
      * unfold quiet; cbn. rewrite closed_app, opened_app, H5, H6. cbn. repeat split; assumption.
      * reflexivity.
      * cbn. rewrite flat_map_app. reflexivity.
    + unfold wp at 1, ret. cbn. apply quiet_fail; assumption.
  - subst active. apply HK. split; [assumption|]. split; [reflexivity|]. rewrite app_nil_r. reflexivity.
Qed.

Lemma limited_spec z : limited z = negb (z =? -1).
Proof. reflexivity. Qed.

Lemma cpu_seconds : max_cpu_time c <> -1 ->
  cpu_limit_seconds (max_cpu_time c) = Val (max_cpu_time c / 1000 + 1).
Proof.
  intros N. destruct accepted as (A & _). unfold limit_ok in A.
  unfold cpu_limit_seconds, int_op, cdiv.
  replace (in_int (max_cpu_time c + 1000)) with true.
  2:{ symmetry. apply in_int_iff. unfold INT_MAX, INT_MIN in *. lia. }
  cbn [cbind]. rewrite Z.quot_div_nonneg by lia.
  replace ((max_cpu_time c + 1000) / 1000) with (max_cpu_time c / 1000 + 1).
  2:{ replace (max_cpu_time c + 1000) with (max_cpu_time c + 1 * 1000) by lia. rewrite Z.div_add by lia. reflexivity. }
  f_equal. apply cast_u64_id. unfold INT_MAX, U64_MOD in *.
  assert (0 <= max_cpu_time c / 1000 <= max_cpu_time c).
  { split; [apply Z.div_pos; lia|apply Z.div_le_upper_bound; lia]. }
  lia.
Qed.

Definition after_limits (k : kstate) : Prop :=
  quiet k /\ limits_installed k /\ flat_map performed (k_trace k) = limit_steps c.

Lemma set_limits_wp {A} (K : M A) (Q : A -> kstate -> Prop) :
  (forall k, after_limits k -> wp K Q final k) -> wp (set_limits env c log K) Q final k0.
Proof.
  intros HK. destruct start as (T & F & _).
  assert (quiet k0) as Hq0 by (unfold quiet; rewrite T; repeat split; assumption).
  destruct accepted as (A1 & A2 & A3 & A4 & A5 & A6). unfold limit_ok in *.
  destruct typed as (T1 & T2 & T3 & T4 & T5 & T6 & _). unfold LONG_MAX, INT_MAX in *.
  unfold set_limits.
  apply limit_block_wp with (w := wanted_limit c RStack); [assumption|reflexivity| |].
  { cbn. rewrite limited_spec. split; [apply negb_true_iff, Z.eqb_neq; lia|].
    f_equal. apply cast_u64_id. unfold U64_MOD; lia. }
  intros k1 (Q1 & R1 & S1).
  apply limit_block_wp with (w := wanted_limit c RAs); [assumption|rewrite R1; reflexivity| |].
  { cbn [wanted_limit]. rewrite limited_spec. destruct (Z.eqb_spec (max_memory c) (-1)); cbn [orb negb andb].
    - apply andb_false_r.
    - destruct (memory_limit_check_only c =? 0); cbn [orb negb andb]; [|reflexivity]. split; [reflexivity|].
      f_equal. rewrite (cast_u64_id (max_memory c)) by (unfold U64_MOD; lia).
      rewrite cast_u64_id by (unfold U64_MOD, LONG_MIN in *; lia). lia. }
  intros k2 (Q2 & R2 & S2).
  apply limit_block_wp with (w := wanted_limit c RCpu); [assumption| | |].
  { rewrite R2. cbn [res_eqb]. rewrite R1. cbn.
    destruct ((max_memory c =? -1) || negb (memory_limit_check_only c =? 0)); reflexivity. }
  { cbn. rewrite limited_spec. destruct (Z.eqb_spec (max_cpu_time c) (-1)); cbn; [reflexivity|].
    split; [reflexivity|]. apply cpu_seconds; assumption. }
  intros k3 (Q3 & R3 & S3).
  assert (k_rlim k2 RFsize = k_rlim k0 RFsize) as Z2.
  { rewrite R2. cbn [res_eqb]. rewrite R1. cbn.
    destruct ((max_memory c =? -1) || negb (memory_limit_check_only c =? 0)); reflexivity. }
  assert (k_rlim k3 RFsize = k_rlim k0 RFsize) as Z3.
  { rewrite R3. cbn [res_eqb]. destruct (wanted_limit c RCpu); assumption. }
  apply limit_block_wp with (w := wanted_limit c RNproc); [assumption|assumption| |].
  { cbn. rewrite limited_spec. destruct (Z.eqb_spec (max_process_number c) (-1)); cbn; [reflexivity|].
    split; [reflexivity|]. f_equal. apply cast_u64_id. unfold U64_MOD; lia. }
  intros k4 (Q4 & R4 & S4).
  assert (k_rlim k4 RFsize = k_rlim k0 RFsize) as Z4.
  { rewrite R4. cbn [res_eqb]. destruct (wanted_limit c RNproc); assumption. }
  apply limit_block_wp with (w := wanted_limit c RFsize); [assumption|assumption| |].
  { cbn. rewrite limited_spec. destruct (Z.eqb_spec (max_output_size c) (-1)); cbn; [reflexivity|].
    split; [reflexivity|]. f_equal. apply cast_u64_id. unfold U64_MOD; lia. }
  intros k5 (Q5 & R5 & S5).
  apply HK. split; [assumption|]. split.
  - intros r. rewrite R5. 
    destruct r; cbn [res_eqb].
    + replace (match wanted_limit c RFsize with Some _ | _ => k_rlim k4 RStack end) with (k_rlim k4 RStack)
        by (destruct (wanted_limit c RFsize); reflexivity).
      rewrite R4. cbn [res_eqb].
      replace (match wanted_limit c RNproc with Some _ | _ => k_rlim k3 RStack end) with (k_rlim k3 RStack)
        by (destruct (wanted_limit c RNproc); reflexivity).
      rewrite R3. cbn [res_eqb].
      replace (match wanted_limit c RCpu with Some _ | _ => k_rlim k2 RStack end) with (k_rlim k2 RStack)
        by (destruct (wanted_limit c RCpu); reflexivity).
      rewrite R2. cbn [res_eqb].
      replace (match wanted_limit c RAs with Some _ | _ => k_rlim k1 RStack end) with (k_rlim k1 RStack)
        by (destruct (wanted_limit c RAs); reflexivity).
      rewrite R1. cbn [res_eqb]. reflexivity.
    + replace (match wanted_limit c RFsize with Some _ | _ => k_rlim k4 RAs end) with (k_rlim k4 RAs)
        by (destruct (wanted_limit c RFsize); reflexivity).
      rewrite R4. cbn [res_eqb].
      replace (match wanted_limit c RNproc with Some _ | _ => k_rlim k3 RAs end) with (k_rlim k3 RAs)
        by (destruct (wanted_limit c RNproc); reflexivity).
      rewrite R3. cbn [res_eqb].
      replace (match wanted_limit c RCpu with Some _ | _ => k_rlim k2 RAs end) with (k_rlim k2 RAs)
        by (destruct (wanted_limit c RCpu); reflexivity).
      rewrite R2. cbn [res_eqb]. destruct (wanted_limit c RAs); [reflexivity|].
      rewrite R1. cbn [res_eqb]. destruct (wanted_limit c RStack); reflexivity.
    + replace (match wanted_limit c RFsize with Some _ | _ => k_rlim k4 RCpu end) with (k_rlim k4 RCpu)
        by (destruct (wanted_limit c RFsize); reflexivity).
      rewrite R4. cbn [res_eqb].
      replace (match wanted_limit c RNproc with Some _ | _ => k_rlim k3 RCpu end) with (k_rlim k3 RCpu)
        by (destruct (wanted_limit c RNproc); reflexivity).
      rewrite R3. cbn [res_eqb]. destruct (wanted_limit c RCpu); [reflexivity|].
      rewrite R2. cbn [res_eqb].
      replace (match wanted_limit c RAs with Some _ | _ => k_rlim k1 RCpu end) with (k_rlim k1 RCpu)
        by (destruct (wanted_limit c RAs); reflexivity).
      rewrite R1. cbn [res_eqb]. destruct (wanted_limit c RStack); reflexivity.
    + replace (match wanted_limit c RFsize with Some _ | _ => k_rlim k4 RNproc end) with (k_rlim k4 RNproc)
        by (destruct (wanted_limit c RFsize); reflexivity).
      rewrite R4. cbn [res_eqb]. destruct (wanted_limit c RNproc); [reflexivity|].
      rewrite R3. cbn [res_eqb].
      replace (match wanted_limit c RCpu with Some _ | _ => k_rlim k2 RNproc end) with (k_rlim k2 RNproc)
        by (destruct (wanted_limit c RCpu); reflexivity).
      rewrite R2. cbn [res_eqb].
      replace (match wanted_limit c RAs with Some _ | _ => k_rlim k1 RNproc end) with (k_rlim k1 RNproc)
        by (destruct (wanted_limit c RAs); reflexivity).
      rewrite R1. cbn [res_eqb]. destruct (wanted_limit c RStack); reflexivity.
    + destruct (wanted_limit c RFsize); [reflexivity|assumption].
  - rewrite S5, S4, S3, S2, S1, T. unfold limit_steps. cbn [flat_map app].
    rewrite <- !app_assoc, app_nil_r. reflexivity.
Qed.

(** ** Redirections *)

Definition fdg (k : kstate) (n : nat) : option ofile := fd_get (k_fds k) n.

Record rinv (k : kstate) (st : list sstep) : Prop := {
  ri_filter : k_filter k = [];
  ri_cred : k_cred k = k_cred k0;
  ri_limits : limits_installed k;
  ri_closed : closed (k_trace k) = [];
  ri_steps : flat_map performed (k_trace k) = st;
  ri_next : (k_next k0 <= k_next k)%nat;
  ri_ids : forall n o, fdg k n = Some o -> (of_id o < k_next k)%nat;
  ri_old : forall n o, (3 <= n)%nat -> fdg k0 n = Some o -> fdg k n = Some o;
  ri_new : forall n o, fdg k n = Some o -> fdg k0 n = Some o \/ origin o;
  ri_opened : forall i, In i (opened (k_trace k)) -> (i < k_next k)%nat
}.

Lemma after_limits_rinv k : after_limits k -> rinv k (limit_steps c).
Proof.
  intros ((H1 & H2 & H3 & H4 & H5 & H6) & L & S). destruct start as (_ & _ & I).
  constructor; try assumption.
  - rewrite H2. apply le_n.
  - unfold fdg. rewrite H1, H2. intros n o. apply I.
  - unfold fdg. rewrite H1. auto.
  - unfold fdg. rewrite H1. auto.
  - rewrite H6. intros i [].
Qed.

Lemma rinv_bump k st : rinv k st -> rinv (bump k) st.
Proof. intros []; constructor; assumption. Qed.

Lemma rinv_reached k st : rinv k st -> reached k.
Proof.
  intros H. split; [|left; apply H].
  pose proof (ri_limits _ _ H RFsize) as L.
  destruct (wanted_limit c RFsize) as [v|]; [right; exists v; split; [reflexivity|assumption]|left; assumption].
Qed.

Lemma rinv_fail {A} k st i o e code (Q : A -> kstate -> Prop) :
  rinv k st -> NoDup (to_close i o e) -> incl (to_close i o e) (opened (k_trace k)) ->
  wp (child_error_exit env log i o e code) Q final k.
Proof.
  intros H N I. apply wp_fail; [eapply rinv_reached; eassumption|left; apply H|].
  split; rewrite (ri_closed _ _ H); assumption.
Qed.

Lemma wp_fopen path m k st (Q : option stream -> kstate -> Prop) :
  rinv k st ->
  ((input_path c = Some path /\ m = MRead) \/
   ((output_path c = Some path \/ error_path c = Some path) /\ m = MWrite)) ->
  Q None (bump k) ->
  (forall k' s, rinv k' (st ++ [SOpen path m]) -> s_id s = k_next k ->
     fdg k' (s_fd s) = Some (mkOf (k_next k) path m) ->
     fdg k (s_fd s) = None ->
     (forall n, n <> s_fd s -> fdg k' n = fdg k n) ->
     k_next k' = S (k_next k) ->
     opened (k_trace k') = opened (k_trace k) ++ [k_next k] ->
     Q (Some s) k') ->
  wp (fopen env path m) Q final k.
Proof.
  intros H Ho HN HS. apply wp_bind. apply wp_call0; [apply H|].
  destruct (ce_ok env (k_calls k)); [|apply wp_ret; assumption].
  unfold wp, bind, get, set_fds, emit, ret. cbn.
  set (fd := lowest_free (k_fds k)).
  assert (forall n, fdg (mkK (fd_set (k_fds k) fd (Some (mkOf (k_next k) path m))) (S (k_next k)) (k_rlim k)
             (k_cred k) (k_filter k) (S (k_calls k)) (k_trace k ++ [EvOpen (k_next k) path m])) n
           = if Nat.eqb fd n then Some (mkOf (k_next k) path m) else fdg k n) as G
    by (intros n; apply fd_get_set).
  assert (fdg k fd = None) as Fr by apply fd_get_lowest.
  apply HS; cbn [s_id s_fd].
  - constructor; cbn [k_filter k_cred k_rlim k_trace k_next]; try apply H.
    + rewrite closed_app, (ri_closed _ _ H). reflexivity.
    + rewrite flat_map_app, (ri_steps _ _ H). reflexivity.
    + pose proof (ri_next _ _ H). lia.
    + intros n o. rewrite G. destruct (Nat.eqb_spec fd n) as [<-|N].
      * intros E; injection E as <-. cbn. lia.
      * intros E. apply (ri_ids _ _ H) in E. lia.
    + intros n o Hn E. rewrite G. apply (ri_old _ _ H) in E; [|assumption].
      destruct (Nat.eqb_spec fd n) as [X|N]; [|assumption]. subst n. congruence.
    + intros n o. rewrite G. destruct (Nat.eqb_spec fd n) as [<-|N].
      * intros E; injection E as <-. right. split; [apply H|exact Ho].
      * apply (ri_new _ _ H).
    + intros i. rewrite opened_app. intros Hi. apply in_app_or in Hi. destruct Hi as [Hi|[<-|[]]]; [|lia].
      apply (ri_opened _ _ H) in Hi. lia.
  - reflexivity.
  - rewrite G, Nat.eqb_refl. reflexivity.
  - assumption.
  - intros n N. rewrite G. destruct (Nat.eqb_spec fd n); [congruence|reflexivity].
  - reflexivity.
  - apply opened_app.
Qed.

Lemma wp_dup2 old n o k st (Q : bool -> kstate -> Prop) :
  rinv k st -> fdg k old = Some o -> origin o -> (n < 3)%nat ->
  Q false (bump k) ->
  (forall k', rinv k' (st ++ [SOnto n]) ->
     fdg k' n = Some o -> (forall m, m <> n -> fdg k' m = fdg k m) ->
     k_next k' = k_next k -> opened (k_trace k') = opened (k_trace k) -> Q true k') ->
  wp (dup2 env old n) Q final k.
Proof.
  intros H Ho Or Hn HF HT. apply wp_bind. unfold wp at 1, get. apply wp_bind.
  apply wp_call0; [apply H|]. unfold fdg in Ho. rewrite Ho.
  destruct (ce_ok env (k_calls k)); [|apply wp_ret; assumption].
  unfold wp, bind, set_fds, emit, ret. cbn.
  assert (forall m, fdg (mkK (fd_set (k_fds k) n (Some o)) (k_next k) (k_rlim k)
             (k_cred k) (k_filter k) (S (k_calls k)) (k_trace k ++ [EvDup2 old n])) m
           = if Nat.eqb n m then Some o else fdg k m) as G by (intros m; apply fd_get_set).
  apply HT.
  - constructor; cbn [k_filter k_cred k_rlim k_trace k_next]; try apply H.
    + rewrite closed_app, (ri_closed _ _ H). reflexivity.
    + rewrite flat_map_app, (ri_steps _ _ H). reflexivity.
    + intros m o'. rewrite G. destruct (Nat.eqb_spec n m) as [<-|N].
      * intros E; injection E as <-. apply (ri_ids _ _ H old). exact Ho.
      * apply (ri_ids _ _ H).
    + intros m o' Hm E. rewrite G. apply (ri_old _ _ H) in E; [|assumption].
      destruct (Nat.eqb_spec n m) as [X|N]; [lia|assumption].
    + intros m o'. rewrite G. destruct (Nat.eqb_spec n m) as [<-|N].
      * intros E; injection E as <-. right. exact Or.
      * apply (ri_new _ _ H).
    + intros i. rewrite opened_app, app_nil_r. apply (ri_opened _ _ H).
  - rewrite G, Nat.eqb_refl. reflexivity.
  - intros m N. rewrite G. destruct (Nat.eqb_spec n m); [congruence|reflexivity].
  - reflexivity.
  - cbn [k_trace]. rewrite opened_app. apply app_nil_r.
Qed.

(** After the input redirection. *)
Record after_in (k : kstate) (i : option stream) : Prop := {
  ai_inv : rinv k (limit_steps c ++ input_steps c);
  ai_fd : forall p, input_path c = Some p ->
          exists s, i = Some s /\ fdg k 0 = Some (mkOf (s_id s) p MRead) /\ (k_next k0 <= s_id s)%nat;
  ai_none : input_path c = None -> i = None;
  ai_op : opened (k_trace k) = sids [i]
}.

Lemma redirect_input_wp k (Q : option stream -> kstate -> Prop) :
  after_limits k -> (forall i k', after_in k' i -> Q i k') ->
  wp (redirect_input env c log) Q final k.
Proof.
  intros H HQ. unfold redirect_input.
  pose proof (after_limits_rinv _ H) as R.
  assert (opened (k_trace k) = []) as OP by (destruct H as ((_ & _ & _ & _ & _ & X) & _); exact X).
  destruct (input_path c) as [p|] eqn:Ep.
  2:{ apply wp_ret. apply HQ. constructor; try congruence.
      - unfold input_steps. rewrite Ep, app_nil_r. exact R.
      - exact OP. }
  apply wp_bind. apply (wp_fopen p MRead k _ _ R).
  - left. split; [exact Ep|reflexivity].
  - eapply rinv_fail; [apply rinv_bump; exact R|constructor|intros x []].
  - intros k1 s R1 Hid Hfd Hnone Hoth Hnx Hop. apply wp_bind.
    apply (wp_dup2 (s_fd s) 0 _ k1 _ _ R1 Hfd); [|lia| |].
    + split; [cbn; apply R|left; split; [exact Ep|reflexivity]].
    + eapply rinv_fail; [apply rinv_bump; exact R1| |].
      * cbn. constructor; [intros []|constructor].
      * cbn. intros x [<-|[]]. rewrite Hop, Hid. apply in_or_app. right; left; reflexivity.
    + intros k2 R2 H0 Hoth2 Hnx2 Hop2. apply wp_ret. apply HQ. constructor.
      * unfold input_steps. rewrite Ep. rewrite <- app_assoc in R2. exact R2.
      * intros p' E. rewrite Ep in E. injection E as <-. exists s. split; [reflexivity|].
        rewrite Hid. split; [exact H0|apply R].
      * congruence.
      * rewrite Hop2, Hop, OP. cbn. rewrite Hid. reflexivity.
Qed.

(** After the output redirection. *)
Record after_out (k : kstate) (i o : option stream) : Prop := {
  ao_inv : rinv k (limit_steps c ++ input_steps c ++ output_steps c);
  ao_fd0 : forall p, input_path c = Some p ->
          exists s, i = Some s /\ fdg k 0 = Some (mkOf (s_id s) p MRead) /\ (k_next k0 <= s_id s)%nat;
  ao_fd1 : forall p, output_path c = Some p ->
          exists s, o = Some s /\ fdg k 1 = Some (mkOf (s_id s) p MWrite) /\
                    fdg k (s_fd s) = Some (mkOf (s_id s) p MWrite) /\ (k_next k0 <= s_id s)%nat;
  ao_none : output_path c = None -> o = None;
  ao_op : opened (k_trace k) = sids [i; o];
  ao_nd : NoDup (sids [i; o])
}.

Lemma to_close_iN i : to_close i None None = sids [i].
Proof. unfold to_close. cbn. destruct i; reflexivity. Qed.
Lemma to_close_ioN i o : to_close i o None = sids [i; o].
Proof. unfold to_close. destruct i, o; reflexivity. Qed.

Lemma NoDup_snoc {A} (l : list A) x : NoDup l -> ~ In x l -> NoDup (l ++ [x]).
Proof.
  intros N H. induction l as [|y l IH]; simpl; [constructor; [intros []|constructor]|].
  inversion N; subst. constructor.
  - rewrite in_app_iff. intros [X|[X|[]]]; [contradiction|]. subst. apply H. left; reflexivity.
  - apply IH; [assumption|]. intros X. apply H. right; assumption.
Qed.

Lemma redirect_output_wp k i (Q : option stream -> kstate -> Prop) :
  after_in k i -> (forall o k', after_out k' i o -> Q o k') ->
  wp (redirect_output env c log i) Q final k.
Proof.
  intros H HQ. unfold redirect_output.
  pose proof (ai_inv _ _ H) as R.
  assert (NoDup (sids [i])) as ND by (destruct i; cbn; repeat constructor; intros []).
  destruct (output_path c) as [p|] eqn:Ep.
  2:{ apply wp_ret. apply HQ. constructor.
      - unfold output_steps. rewrite Ep, app_nil_r. exact R.
      - apply H.
      - congruence.
      - reflexivity.
      - rewrite (ai_op _ _ H). destruct i; reflexivity.
      - destruct i; cbn in *; assumption. }
  apply wp_bind. apply (wp_fopen p MWrite k _ _ R).
  - right. split; [left; exact Ep|reflexivity].
  - eapply rinv_fail; [apply rinv_bump; exact R| |]; rewrite to_close_iN; [assumption|].
    cbn [bump k_trace]. rewrite (ai_op _ _ H). apply incl_refl.
  - intros k1 s R1 Hid Hfd Hnone Hoth Hnx Hop. apply wp_bind.
    assert (~ In (k_next k) (sids [i])) as Fresh.
    { rewrite <- (ai_op _ _ H). intros X. apply (ri_opened _ _ R) in X. lia. }
    assert (sids [i; Some s] = sids [i] ++ [k_next k]) as Sids
      by (destruct i; cbn; rewrite Hid; reflexivity).
    assert (NoDup (sids [i; Some s])) as ND2 by (rewrite Sids; apply NoDup_snoc; assumption).
    assert (opened (k_trace k1) = sids [i; Some s]) as OP1 by (rewrite Hop, Sids, (ai_op _ _ H); reflexivity).
    apply (wp_dup2 (s_fd s) 1 _ k1 _ _ R1 Hfd); [|lia| |].
    + split; [cbn; apply R|right; split; [left; exact Ep|reflexivity]].
    + eapply rinv_fail; [apply rinv_bump; exact R1| |]; rewrite to_close_ioN; [assumption|].
      cbn [bump k_trace]. rewrite OP1. apply incl_refl.
    + intros k2 R2 H1 Hoth2 Hnx2 Hop2. apply wp_ret. apply HQ. constructor.
      * unfold output_steps. rewrite Ep. rewrite <- !app_assoc in R2. exact R2.
      * intros p' E. destruct (ai_fd _ _ H _ E) as (s' & -> & F0 & L). exists s'.
        split; [reflexivity|]. split; [|assumption].
        rewrite Hoth2 by discriminate. rewrite Hoth; [assumption|]. intros X. rewrite X in F0. congruence.
      * intros p' E. rewrite Ep in E. injection E as <-. exists s. split; [reflexivity|].
        rewrite Hid. split; [exact H1|]. split; [|apply R].
        destruct (Nat.eq_dec (s_fd s) 1) as [->|N]; [exact H1|]. rewrite Hoth2 by assumption. exact Hfd.
      * congruence.
      * rewrite Hop2. exact OP1.
      * exact ND2.
Qed.

(** After all redirections. *)
Record after_err (k : kstate) (i o e : option stream) : Prop := {
  ae_inv : rinv k (limit_steps c ++ input_steps c ++ output_steps c ++ error_steps c);
  ae_std : std_streams k;
  ae_nd : NoDup (to_close i o e);
  ae_op : incl (to_close i o e) (opened (k_trace k))
}.

Lemma redirect_error_wp k i o (Q : option stream -> kstate -> Prop) :
  after_out k i o -> (forall e k', after_err k' i o e -> Q e k') ->
  wp (redirect_error env c log i o) Q final k.
Proof.
  intros H HQ. unfold redirect_error.
  pose proof (ao_inv _ _ _ H) as R.
  destruct (error_path c) as [p|] eqn:Ep.
  2:{ apply wp_ret. apply HQ. constructor.
      - unfold error_steps. rewrite Ep. destruct (output_path c); rewrite app_nil_r; exact R.
      - split; [|split; [|split]].
        + intros q E. destruct (ao_fd0 _ _ _ H _ E) as (s & _ & F & L). eexists. split; [exact F|]. cbn. auto.
        + intros q E. destruct (ao_fd1 _ _ _ H _ E) as (s & _ & F & _ & L). eexists. split; [exact F|]. cbn. auto.
        + congruence.
        + congruence.
      - rewrite to_close_ioN. apply H.
      - rewrite to_close_ioN, (ao_op _ _ _ H). apply incl_refl. }
  (* dup2 of an error stream that shares or does not share the output stream *)
  assert (forall k1 s, rinv k1 (limit_steps c ++ input_steps c ++ output_steps c ++
                                (match output_path c with
                                 | Some q => if str_eqb q p then [] else [SOpen p MWrite]
                                 | None => [SOpen p MWrite] end)) ->
    (forall q, input_path c = Some q -> exists s, i = Some s /\ fdg k1 0 = Some (mkOf (s_id s) q MRead) /\ (k_next k0 <= s_id s)%nat) ->
    (forall q, output_path c = Some q -> exists s1, o = Some s1 /\ fdg k1 1 = Some (mkOf (s_id s1) q MWrite) /\ (k_next k0 <= s_id s1)%nat /\ (s_id s1 = s_id s <-> q = p)) ->
    (output_path c = None -> o = None) ->
    fdg k1 (s_fd s) = Some (mkOf (s_id s) p MWrite) -> (k_next k0 <= s_id s)%nat ->
    NoDup (to_close i o (Some s)) -> incl (to_close i o (Some s)) (opened (k_trace k1)) ->
    wp (ok <- dup2 env (s_fd s) 2 ;;
        if ok then ret (Some s) else child_error_exit env log i o (Some s) DUP2_FAILED) Q final k1) as Dup.
  { intros k1 s R1 F0 F1 FN Fs Ls ND OP. apply wp_bind.
    apply (wp_dup2 (s_fd s) 2 _ k1 _ _ R1 Fs); [|lia| |].
    - split; [exact Ls|right; split; [right; exact Ep|reflexivity]].
    - eapply rinv_fail; [apply rinv_bump; exact R1|assumption|assumption].
    - intros k2 R2 H2 Hoth Hnx Hop. apply wp_ret. apply HQ. constructor.
      + replace (limit_steps c ++ input_steps c ++ output_steps c ++ error_steps c)
          with ((limit_steps c ++ input_steps c ++ output_steps c ++
                  match output_path c with
                  | Some q => if str_eqb q p then [] else [SOpen p MWrite]
                  | None => [SOpen p MWrite] end) ++ [SOnto 2]); [exact R2|].
        rewrite <- !app_assoc. do 3 f_equal. unfold error_steps. rewrite Ep.
        destruct (output_path c) as [q|]; [destruct (str_eqb q p); reflexivity|reflexivity].
      + split; [|split; [|split]].
        * intros q E. destruct (F0 _ E) as (s' & _ & F & L). eexists. split.
          { rewrite descriptor_fd_get. fold (fdg k2 0). rewrite Hoth by discriminate. exact F. } cbn. auto.
        * intros q E. destruct (F1 _ E) as (s' & _ & F & L & _). eexists. split.
          { rewrite descriptor_fd_get. fold (fdg k2 1). rewrite Hoth by discriminate. exact F. } cbn. auto.
        * intros q E. rewrite Ep in E. injection E as <-. eexists. split; [exact H2|]. cbn. auto.
        * intros q q' E E' o1 o2 D1 D2. rewrite Ep in E'. injection E' as <-.
          destruct (F1 _ E) as (s' & _ & F & L & Iff).
          rewrite descriptor_fd_get in D1, D2. fold (fdg k2 1) in D1. fold (fdg k2 2) in D2.
          rewrite Hoth in D1 by discriminate. rewrite F in D1. injection D1 as <-.
          rewrite H2 in D2. injection D2 as <-. cbn. exact Iff.
      + assumption.
      + rewrite Hop. assumption. }
  (* opening a separate error file *)
  assert (forall f, (match output_path c with Some q => str_eqb q p = false | None => True end) ->
     f = (fun f : option stream => match f with
                  | None => child_error_exit env log i o None DUP2_FAILED
                  | Some f => ret (Some f)
                  end) ->
     wp (bind (bind (fopen env p MWrite) f)
          (fun error_file => match error_file with
            | None => fun _ => Stop CUB
            | Some f => ok <- dup2 env (s_fd f) 2 ;;
               if ok then ret (Some f) else child_error_exit env log i o (Some f) DUP2_FAILED
            end)) Q final k) as Open.
  { intros f Hne ->. apply wp_bind, wp_bind. apply (wp_fopen p MWrite k _ _ R).
    - right. split; [right; exact Ep|reflexivity].
    - eapply rinv_fail; [apply rinv_bump; exact R| |]; rewrite to_close_ioN; [apply H|].
      cbn [bump k_trace]. rewrite (ao_op _ _ _ H). apply incl_refl.
    - intros k1 s R1 Hid Hfd Hnone Hoth Hnx Hop. apply wp_ret.
      assert (~ In (k_next k) (sids [i; o])) as Fresh.
      { rewrite <- (ao_op _ _ _ H). intros X. apply (ri_opened _ _ R) in X. lia. }
      assert (sids [i; o; Some s] = sids [i; o] ++ [k_next k]) as Sids
        by (destruct i, o; cbn; rewrite Hid; reflexivity).
      assert (forall s1, o = Some s1 -> s_id s1 <> s_id s) as Dif.
      { intros s1 -> X. apply Fresh. rewrite Hid in X. rewrite <- X. destruct i; cbn; auto. }
      assert (to_close i o (Some s) = sids [i; o; Some s]) as TC.
      { unfold to_close. destruct o as [s1|]; cbn [same_stream]; [|reflexivity].
        destruct (Nat.eqb_spec (s_id s1) (s_id s)) as [X|_]; [|reflexivity].
        exfalso; apply (Dif s1); auto. }
      apply Dup.
      + replace (match output_path c with
                 | Some q => if str_eqb q p then [] else [SOpen p MWrite]
                 | None => [SOpen p MWrite] end) with [SOpen p MWrite]
          by (destruct (output_path c); [rewrite Hne; reflexivity|reflexivity]).
        rewrite <- !app_assoc in R1. exact R1.
      + intros q E. destruct (ao_fd0 _ _ _ H _ E) as (s' & -> & F & L). exists s'.
        split; [reflexivity|]. split; [|assumption]. rewrite Hoth; [assumption|]. intros X; rewrite X in F; congruence.
      + intros q E. destruct (ao_fd1 _ _ _ H _ E) as (s' & Eo & F & _ & L). exists s'.
        split; [assumption|]. split; [rewrite Hoth; [assumption|]; intros X; rewrite X in F; congruence|].
        split; [assumption|]. rewrite E in Hne. split.
        * intros X. exfalso. apply (Dif s'); assumption.
        * intros ->. rewrite str_eqb_refl in Hne. discriminate.
      + apply H.
      + rewrite Hid. exact Hfd.
      + rewrite Hid. apply R.
      + rewrite TC, Sids. apply NoDup_snoc; [apply H|assumption].
      + rewrite TC, Hop, Sids, (ao_op _ _ _ H). apply incl_refl. }
  destruct (output_path c) as [q|] eqn:Eq.
  - destruct (str_eqb q p) eqn:Es.
    + apply str_eqb_eq in Es. subst q.
      destruct (ao_fd1 _ _ _ H _ Eq) as (s & -> & F1 & Fs & L).
      apply wp_bind. apply wp_ret.
      assert (to_close i (Some s) (Some s) = sids [i; Some s]) as TC
        by (unfold to_close; cbn [same_stream]; rewrite Nat.eqb_refl; reflexivity).
      apply Dup.
      * rewrite app_nil_r. exact R.
      * apply H.
      * intros q E. injection E as <-. exists s. split; [reflexivity|]. split; [assumption|].
        split; [assumption|]. tauto.
      * congruence.
      * assumption.
      * assumption.
      * rewrite TC. apply H.
      * rewrite TC, (ao_op _ _ _ H). apply incl_refl.
    + apply Open; [reflexivity|reflexivity].
  - apply Open; [exact I|reflexivity].
Qed.

(** ** Credentials *)

Record after_ids (k : kstate) (i o e : option stream) : Prop := {
  ad_steps : flat_map performed (k_trace k)
             = limit_steps c ++ input_steps c ++ output_steps c ++ error_steps c ++ id_steps c;
  ad_filter : k_filter k = [];
  ad_limits : limits_installed k;
  ad_std : std_streams k;
  ad_fd : fd_frame k;
  ad_cred : cred_frame k;
  ad_closed : closed (k_trace k) = [];
  ad_nd : NoDup (to_close i o e);
  ad_op : incl (to_close i o e) (opened (k_trace k))
}.

(** Everything but credentials and trace is as in [k]. *)
Definition creds_only (k k' : kstate) (st : list sstep) : Prop :=
  k_fds k' = k_fds k /\ k_next k' = k_next k /\ k_rlim k' = k_rlim k /\ k_filter k' = k_filter k /\
  flat_map performed (k_trace k') = flat_map performed (k_trace k) ++ st /\
  closed (k_trace k') = closed (k_trace k) /\ opened (k_trace k') = opened (k_trace k).

Lemma creds_only_refl k : creds_only k (bump k) [].
Proof. unfold creds_only; cbn. rewrite app_nil_r. repeat split. Qed.

Lemma creds_only_trans k k1 k2 s t : creds_only k k1 s -> creds_only k1 k2 t -> creds_only k k2 (s ++ t).
Proof.
  intros (A1 & A2 & A3 & A4 & A5 & A6 & A7) (B1 & B2 & B3 & B4 & B5 & B6 & B7).
  unfold creds_only. rewrite B1, B2, B3, B4, B5, B6, B7, A5, app_assoc. repeat split; assumption.
Qed.

Lemma wp_setgid g k (Q : bool -> kstate -> Prop) :
  k_filter k = [] -> 
  (forall k', creds_only k k' [] -> Q false k') ->
  (forall k', creds_only k k' [SGid g] ->
     (euid (k_cred k) = 0 -> k_cred k' = mkCred (ruid (k_cred k)) (euid (k_cred k)) (suid (k_cred k)) g g g (groups (k_cred k))) ->
     (euid (k_cred k) <> 0 -> euid (k_cred k') <> 0) -> Q true k') ->
  wp (setgid env g) Q final k.
Proof.
  intros F HF HT. apply wp_bind. unfold wp at 1, get. apply wp_bind. apply wp_call0; [assumption|].
  destruct (ce_ok env (k_calls k)); [|apply wp_ret, HF, creds_only_refl].
  destruct (Z.eqb_spec (euid (k_cred k)) 0) as [E|E].
  - unfold wp, bind, set_cred, emit, ret. cbn. apply HT.
    + unfold creds_only; cbn. rewrite flat_map_app, closed_app, opened_app, !app_nil_r. repeat split.
    + reflexivity.
    + cbn. tauto.
  - destruct ((g =? rgid (k_cred k)) || (g =? sgid (k_cred k))); [|apply wp_ret, HF, creds_only_refl].
    unfold wp, bind, set_cred, emit, ret. cbn. apply HT.
    + unfold creds_only; cbn. rewrite flat_map_app, closed_app, opened_app, !app_nil_r. repeat split.
    + intros X; contradiction.
    + cbn. tauto.
Qed.

Lemma wp_setgroups gs k (Q : bool -> kstate -> Prop) :
  k_filter k = [] ->
  (forall k', creds_only k k' [] -> Q false k') ->
  (forall k', creds_only k k' [SGroups gs] -> euid (k_cred k) = 0 ->
     k_cred k' = mkCred (ruid (k_cred k)) (euid (k_cred k)) (suid (k_cred k))
                        (rgid (k_cred k)) (egid (k_cred k)) (sgid (k_cred k)) gs -> Q true k') ->
  wp (setgroups env gs) Q final k.
Proof.
  intros F HF HT. apply wp_bind. unfold wp at 1, get. apply wp_bind. apply wp_call0; [assumption|].
  destruct (ce_ok env (k_calls k)); [|apply wp_ret, HF, creds_only_refl]. cbn [andb].
  destruct (Z.eqb_spec (euid (k_cred k)) 0) as [E|E]; [|apply wp_ret, HF, creds_only_refl].
  unfold wp, bind, set_cred, emit, ret. cbn. apply HT.
  - unfold creds_only; cbn. rewrite flat_map_app, closed_app, opened_app, !app_nil_r. repeat split.
  - assumption.
  - reflexivity.
Qed.

Lemma wp_setuid u k (Q : bool -> kstate -> Prop) :
  k_filter k = [] ->
  (forall k', creds_only k k' [] -> Q false k') ->
  (forall k', creds_only k k' [SUid u] ->
     (euid (k_cred k) = 0 -> k_cred k' = mkCred u u u (rgid (k_cred k)) (egid (k_cred k)) (sgid (k_cred k)) (groups (k_cred k))) ->
     Q true k') ->
  wp (setuid env u) Q final k.
Proof.
  intros F HF HT. apply wp_bind. unfold wp at 1, get. apply wp_bind. apply wp_call0; [assumption|].
  destruct (ce_ok env (k_calls k)); [|apply wp_ret, HF, creds_only_refl].
  destruct (Z.eqb_spec (euid (k_cred k)) 0) as [E|E].
  - unfold wp, bind, set_cred, emit, ret. cbn. apply HT.
    + unfold creds_only; cbn. rewrite flat_map_app, closed_app, opened_app, !app_nil_r. repeat split.
    + reflexivity.
  - destruct ((u =? ruid (k_cred k)) || (u =? suid (k_cred k))); [|apply wp_ret, HF, creds_only_refl].
    unfold wp, bind, set_cred, emit, ret. cbn. apply HT.
    + unfold creds_only; cbn. rewrite flat_map_app, closed_app, opened_app, !app_nil_r. repeat split.
    + intros X; contradiction.
Qed.

Lemma id_given_spec z : id_given z = negb (z =? keep_id).
Proof. reflexivity. Qed.

(** Failure while changing credentials. *)
Lemma creds_fail {A} k k' st i o e code (Q : A -> kstate -> Prop) :
  after_err k i o e -> creds_only k k' st ->
  wp (child_error_exit env log i o e code) Q final k'.
Proof.
  intros H (C1 & C2 & C3 & C4 & C5 & C6 & C7). pose proof (ae_inv _ _ _ _ H) as R.
  apply wp_fail.
  - destruct (rinv_reached _ _ R) as [X Y]. split; [rewrite C3; exact X|].
    left. rewrite C4. apply R.
  - left. rewrite C4. apply R.
  - split; rewrite C6, (ri_closed _ _ R); cbn; [apply H|]. rewrite C7. apply H.
Qed.

Lemma drop_wp {A} k i o e (K : M A) (Q : A -> kstate -> Prop) :
  after_err k i o e -> (forall k', after_ids k' i o e -> wp K Q final k') ->
  wp (drop_privileges env c (child_error_exit env log i o e SETUID_FAILED) K) Q final k.
Proof.
  intros H HK. pose proof (ae_inv _ _ _ _ H) as R.
  assert (forall k' g, creds_only k k' ((if gid c =? keep_id then [] else [SGid (gid c); SGroups [gid c]]) ++
                                      (if uid c =? keep_id then [] else [SUid (uid c)])) ->
            cred_frame k' -> g = k' -> after_ids k' i o e) as Fin.
  { intros k' _ (C1 & C2 & C3 & C4 & C5 & C6 & C7) CF _. constructor; try assumption.
    - rewrite C5, (ri_steps _ _ R). unfold id_steps. rewrite <- !app_assoc. reflexivity.
    - rewrite C4. apply R.
    - intros r. rewrite C3. apply (ri_limits _ _ R).
    - pose proof (ae_std _ _ _ _ H) as SS. unfold std_streams, redirected, descriptor in *. rewrite C1. exact SS.
    - split; unfold descriptor in *; rewrite C1.
      + apply (ri_old _ _ R).
      + apply (ri_new _ _ R).
    - rewrite C6. apply R.
    - apply H.
    - rewrite C7. apply H. }
  unfold drop_privileges. rewrite !id_given_spec.
  (* gid part *)
  apply wp_bind.
  assert (forall k1, creds_only k k1 (if gid c =? keep_id then [] else [SGid (gid c); SGroups [gid c]]) ->
     (euid (k_cred k0) = 0 ->
        k_cred k1 = if gid c =? keep_id then k_cred k0
                    else mkCred (ruid (k_cred k0)) (euid (k_cred k0)) (suid (k_cred k0)) (gid c) (gid c) (gid c) [gid c]) ->
     wp (bind (if negb (uid c =? keep_id) then setuid env (uid c) else ret true)
           (fun ok => if ok then K else child_error_exit env log i o e SETUID_FAILED)) Q final k1) as U.
  { intros k1 C1 CR1. apply wp_bind.
    assert (k_filter k1 = []) as F1 by (destruct C1 as (_ & _ & _ & X & _); rewrite X; apply R).
    destruct (Z.eqb_spec (uid c) keep_id) as [Eu|Eu]; cbn [negb].
    - apply wp_ret. apply HK. apply (Fin k1 k1); [|..].
      + rewrite app_nil_r. exact C1.
      + intros E0. specialize (CR1 E0). rewrite CR1. unfold dropped.
        destruct (Z.eqb_spec (gid c) keep_id) as [Eg|Eg]; rewrite CR1; cbn; repeat split; try assumption; try contradiction; try congruence.
      + reflexivity.
    - apply wp_setuid; [assumption| |].
      + intros k2 C2. eapply creds_fail; [exact H|]. eapply creds_only_trans; [exact C1|exact C2].
      + intros k2 C2 CR2. apply HK. apply (Fin k2 k2); [|..].
        * eapply creds_only_trans; [exact C1|exact C2].
        * intros E0. specialize (CR1 E0).
          assert (euid (k_cred k1) = 0) as E1 by (rewrite CR1; destruct (gid c =? keep_id); assumption).
          specialize (CR2 E1). unfold dropped. rewrite CR2, CR1.
          destruct (Z.eqb_spec (gid c) keep_id) as [Eg|Eg]; cbn; repeat split; try assumption; try contradiction; try congruence.
        * reflexivity. }
  destruct (Z.eqb_spec (gid c) keep_id) as [Eg|Eg]; cbn [negb].
  - apply wp_ret. cbn [negb]. apply U.
    + unfold creds_only. rewrite app_nil_r. repeat split.
    + intros _. apply R.
  - apply wp_bind. apply wp_setgid; [apply R| |].
    + intros k1 C1. apply wp_ret. cbn [negb]. eapply creds_fail; [exact H|exact C1].
    + intros k1 C1 CR1 _.
      assert (k_filter k1 = []) as F1 by (destruct C1 as (_ & _ & _ & X & _); rewrite X; apply R).
      apply wp_setgroups; [assumption| |].
      * intros k2 C2. cbn [negb]. eapply creds_fail; [exact H|]. eapply creds_only_trans; [exact C1|exact C2].
      * intros k2 C2 E1 CR2. cbn [negb]. apply U.
        { apply (creds_only_trans _ _ _ _ _ C1 C2). }
        { intros E0. rewrite (ri_cred _ _ R) in CR1. specialize (CR1 E0). rewrite CR2, CR1. reflexivity. }
Qed.

(** ** Seccomp and execve *)

(** The judger's own execve call passes every filter. *)
Lemma profile_own_execve known p nm f :
  profile known p nm f ->
  filter_action f (mkSys true "execve" (fun a => if Nat.eqb a 0 then p else 0)) = ActAllow.
Proof.
  intros H. destruct H.
  - apply c_cpp_allow_iff. split; [reflexivity|]. right; left. split; reflexivity.
  - apply c_cpp_file_io_allow_iff. split; [reflexivity|]. right; left. split; reflexivity.
  - apply general_action. split; [|discriminate].
    intros [X|[X|[[_ X]|[[_ X]|(fl & X & _)]]]]; try discriminate; cbn in X; intuition discriminate.
  - apply golang_action. intros [X|[X|[[_ X]|(fl & X & _)]]]; try discriminate. cbn in X; intuition discriminate.
  - apply node_action. intros [X|[X|[_ X]]]; try discriminate. cbn in X; intuition discriminate.
Qed.

Lemma child_wp : wp (child_process_m env log c) (fun _ _ => False) final k0.
Proof.
  unfold child_process_m. apply set_limits_wp. intros k1 H1.
  apply wp_bind. apply redirect_input_wp; [assumption|]. intros i k2 H2.
  apply wp_bind. apply redirect_output_wp; [assumption|]. intros o k3 H3.
  apply wp_bind. apply redirect_error_wp; [assumption|]. intros e k4 H4.
  apply drop_wp; [assumption|]. intros k5 H5.
  assert (reached k5) as Re5.
  { split; [|left; apply H5]. pose proof (ad_limits _ _ _ _ H5 RFsize) as L.
    destruct (wanted_limit c RFsize) as [v|]; [right; exists v; split; [reflexivity|assumption]|left; assumption]. }
  assert (files_inv k5 (to_close i o e)) as FI5 by (split; rewrite (ad_closed _ _ _ _ H5); apply H5).
  (* execve from a state with the requested filter *)
  assert (forall k6, filter_loaded k6 -> filter_state env c k6 ->
     k_fds k6 = k_fds k5 -> k_rlim k6 = k_rlim k5 -> k_cred k6 = k_cred k5 ->
     closed (k_trace k6) = [] -> opened (k_trace k6) = opened (k_trace k5) ->
     flat_map performed (k_trace k6) ++ [SRun] = sandbox_script c ->
     wp (execve env c (child_error_exit env log i o e EXECVE_FAILED)) (fun (_ : unit) _ => False) final k6) as Ex.
  { intros k6 FL FS E1 E2 E3 E4 E5 E6. apply wp_bind. apply wp_call.
    - intros X. exfalso. unfold filter_loaded in FL. destruct (seccomp_rule_name c) as [nm|].
      + destruct FL as (f & Ff & P & _). rewrite Ff in X. cbn [filters_action] in X.
        rewrite (profile_own_execve _ _ _ _ P) in X. discriminate.
      + rewrite FL in X. discriminate.
    - intros b Hb. destruct b.
      + apply wp_bind. apply wp_emit. unfold wp. cbn. split; [repeat split|].
        cbn. rewrite flat_map_app. split; [exact E6|].
        split; [intros r; cbn; rewrite E2; apply (ad_limits _ _ _ _ H5)|].
        pose proof (ad_std _ _ _ _ H5) as SS. pose proof (ad_fd _ _ _ _ H5) as FF.
        pose proof (ad_cred _ _ _ _ H5) as CC.
        split; [unfold std_streams, redirected, descriptor in *; cbn; rewrite E1; exact SS|].
        split; [unfold fd_frame, descriptor in *; cbn; rewrite E1; exact FF|].
        split; [unfold cred_frame, dropped in *; cbn; rewrite E3; exact CC|].
        split; [exact FL|]. rewrite closed_app, E4. reflexivity.
      + apply wp_fail.
        * split; cbn; [rewrite E2; apply Re5|].
          unfold filter_loaded in FL |- *. cbn. destruct (seccomp_rule_name c) as [nm|] eqn:En.
          { right. split; [congruence|exact FL]. } { left. exact FL. }
        * exact FS.
        * unfold files_inv. cbn. rewrite E4, E5. split; apply H5. }
  unfold load_seccomp.
  destruct (select_filter (ce_seccomp_ok env) (ce_has_execveat env) (ce_exe_ptr env) (seccomp_rule_name c))
    as [[f|]|] eqn:S.
  - pose proof (select_filter_some _ _ _ _ _ S) as P.
    destruct (seccomp_rule_name c) as [nm|] eqn:En; [|contradiction].
    apply wp_bind. unfold wp at 1. apply wp_bind. apply wp_emit. cbn.
    apply Ex; cbn [k_fds k_rlim k_cred k_trace k_filter k_next]; try reflexivity.
    + unfold filter_loaded. rewrite En. exists f. cbn. rewrite (ad_filter _ _ _ _ H5). split; [reflexivity|assumption].
    + right. exists f. cbn. rewrite (ad_filter _ _ _ _ H5). split; [reflexivity|]. rewrite En. exact S.
    + rewrite closed_app, (ad_closed _ _ _ _ H5). reflexivity.
    + rewrite opened_app. apply app_nil_r.
    + rewrite flat_map_app, (ad_steps _ _ _ _ H5). unfold sandbox_script, filter_steps. rewrite En.
      rewrite <- !app_assoc. reflexivity.
  - pose proof (select_filter_some _ _ _ _ _ S) as P.
    destruct (seccomp_rule_name c) as [nm|] eqn:En; [contradiction|].
    apply Ex; try reflexivity.
    + unfold filter_loaded. rewrite En. apply H5.
    + left. apply H5.
    + apply H5.
    + rewrite (ad_steps _ _ _ _ H5). unfold sandbox_script, filter_steps. rewrite En.
      rewrite <- !app_assoc. reflexivity.
  - apply wp_fail; [assumption| |assumption]. left. apply H5.
Qed.

Theorem child_final : final (child_process env log c k0).
Proof.
  pose proof child_wp as H. unfold wp in H. unfold child_process.
  destruct (child_process_m env log c k0); [contradiction|assumption].
Qed.
End Exec.
