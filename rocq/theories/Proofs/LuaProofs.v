(** The Lua binding. *)
From Coq Require Import ZArith Bool List Ascii String Arith Lia.
From Verif.Base Require Import CInt CStr CMem.
From Verif.Model Require Import Config Runner LuaBinding.
From Verif.Spec Require Import IntText LuaSpec DstrSpec.
From Verif.Proofs Require Import DstrProofs.
Import ListNotations.
Open Scope list_scope.
Open Scope nat_scope.

(** Unfold the loop last when comparing terms. *)
Local Strategy 1000 [read_args].

Lemma strdup_upto s : strdup s = upto_nul s.
Proof. unfold strdup, terminated. rewrite cstr_upto. reflexivity. Qed.
Lemma strdup_id s : no_nul s -> strdup s = s.
Proof. intros N. rewrite strdup_upto. apply upto_id, N. Qed.

Lemma lookup_has t name v : is_table t -> has t name v -> lookup t (lit name) = v.
Proof.
  unfold is_table, has. generalize (lit name) as n. intros n. induction t as [|[k w] t IH]; [intros _ []|].
  intros N I. cbn [map fst] in N. inversion N as [|x l Nx N']; subst.
  destruct I as [I|I].
  - injection I as -> ->. cbn. rewrite (proj2 (str_eqb_eq n n) eq_refl). reflexivity.
  - cbn [lookup]. specialize (IH N' I). destruct k; try exact IH.
    destruct (str_eqb s n) eqn:E; [|exact IH]. apply str_eqb_eq in E. subst. exfalso. apply Nx.
    apply (in_map fst) in I. exact I.
Qed.

Lemma lookup_In t name : lookup t (lit name) = LNil \/ has t name (lookup t (lit name)).
Proof.
  unfold has. generalize (lit name) as n. intros n. induction t as [|[k w] t IH]; [left; reflexivity|]. cbn [lookup].
  assert (lookup t n = LNil \/ In (LString n, lookup t n) ((k, w) :: t)) as R.
  { destruct IH as [IH|IH]; [left; exact IH|right; right; exact IH]. }
  destruct k; try exact R. destruct (str_eqb s n) eqn:E; [|exact R].
  apply str_eqb_eq in E. subst. right. left. reflexivity.
Qed.

Lemma lookup_lacks t name : lacks t name -> lookup t (lit name) = LNil.
Proof. intros L. destruct (lookup_In t name) as [H|H]; [exact H|]. exfalso. exact (L _ H). Qed.

Lemma checkstringtable_ok l ss n : strings l ss -> List.length l <= n -> checkstringtable l n = Some (map strdup ss).
Proof.
  intros S. revert n. induction S as [|e s l ss [k ->] S IH]; intros n L; [reflexivity|]. cbn in L.
  destruct n as [|n]; [lia|]. cbn. rewrite IH by lia. reflexivity.
Qed.

Lemma checkstringtable_only l n r : checkstringtable l n = Some r ->
  exists ss, strings l ss /\ List.length l <= n /\ r = map strdup ss.
Proof.
  revert n r. induction l as [|[k v] l IH]; intros n r H.
  - injection H as <-. exists []. split; [constructor|]. split; [cbn; lia|reflexivity].
  - cbn in H. destruct k; try discriminate H. destruct v; try discriminate H. destruct n as [|n]; [discriminate H|].
    destruct (checkstringtable l n) as [r'|] eqn:E; [|discriminate H]. injection H as <-.
    destruct (IH n r' E) as (ss & S & L & ->). exists (s :: ss). split; [constructor; [eexists; reflexivity|exact S]|].
    split; [cbn; lia|reflexivity].
Qed.

Lemma store_low_0 n : store_low 0 n = (n mod U32_MOD)%Z.
Proof. unfold store_low. rewrite Z.div_0_l by discriminate. reflexivity. Qed.

(** One round of the loop. *)
Lemma read_number t name na masks i c n : lookup t (lit name) = LNumber n ->
  read_args t ((name, TNumber, na) :: masks) i c = read_args t masks (S i) (store_number i n c).
Proof. intros E. cbn [read_args]. rewrite E. reflexivity. Qed.
Lemma read_string t name na masks i c s : lookup t (lit name) = LString s ->
  read_args t ((name, TString, na) :: masks) i c = read_args t masks (S i) (store_string i (strdup s) c).
Proof. intros E. cbn [read_args]. rewrite E. reflexivity. Qed.
Lemma read_nil t name masks i c : lookup t (lit name) = LNil ->
  read_args t ((name, TString, true) :: masks) i c = read_args t masks (S i) (store_nil i c).
Proof. intros E. cbn [read_args]. rewrite E. reflexivity. Qed.
Lemma read_table t name na masks i c l ss : lookup t (lit name) = LTable l -> checkstringtable l 255 = Some ss ->
  read_args t ((name, TTable, na) :: masks) i c = read_args t masks (S i) (store_table i (cells ss) c).
Proof. intros E E'. cbn [read_args]. rewrite E. cbn [has_type negb andb]. rewrite E'. reflexivity. Qed.

(** The configuration for the parameters, before any assumption on their values. *)
Definition config_for (p : lua_params) : config :=
  mkConfig (cast_int (lp_cpu p)) (cast_int (lp_real p)) (store_low 0 (lp_memory p)) 0 (cast_int (lp_processes p))
    (store_low 0 (lp_output p)) 0 (strdup (lp_exe p)) (Some (strdup (lp_input p))) (Some (strdup (lp_out p)))
    (Some (strdup (lp_err p))) (cells (map strdup (lp_args p))) (cells (map strdup (lp_env p))) (strdup (lp_log p))
    (option_map strdup (lp_rule p)) (cast_u32 (lp_uid p)) (cast_u32 (lp_gid p)).

Lemma described t p : is_table t -> describes t p -> lua_config [LTable t] = Some (config_for p).
Proof.
  intros T D. destruct D as [D1 D2 D3 D4 D5 D6 D7 D8 D9 D10 D11 (la & D12 & Sa & La) (le & D13 & Se & Le) D14 D15].
  unfold lua_config, last_table. cbn [hd_error last]. unfold read_config, arg_mask, zero_config.
  rewrite (read_number _ _ _ _ _ _ _ (lookup_has _ _ _ T D1)).
  rewrite (read_number _ _ _ _ _ _ _ (lookup_has _ _ _ T D2)).
  rewrite (read_number _ _ _ _ _ _ _ (lookup_has _ _ _ T D3)).
  rewrite (read_number _ _ _ _ _ _ _ (lookup_has _ _ _ T D4)).
  rewrite (read_number _ _ _ _ _ _ _ (lookup_has _ _ _ T D5)).
  rewrite (read_string _ _ _ _ _ _ _ (lookup_has _ _ _ T D6)).
  rewrite (read_string _ _ _ _ _ _ _ (lookup_has _ _ _ T D7)).
  rewrite (read_string _ _ _ _ _ _ _ (lookup_has _ _ _ T D8)).
  rewrite (read_string _ _ _ _ _ _ _ (lookup_has _ _ _ T D9)).
  rewrite (read_string _ _ _ _ _ _ _ (lookup_has _ _ _ T D10)).
  pose proof (checkstringtable_ok _ _ 255 Sa La) as Ka. pose proof (checkstringtable_ok _ _ 255 Se Le) as Ke.
  unfold config_for.
  destruct (lp_rule p) as [s|].
  - rewrite (read_string _ _ _ _ _ _ _ (lookup_has _ _ _ T D11)).
    rewrite (read_table _ _ _ _ _ _ _ _ (lookup_has _ _ _ T D12) Ka).
    rewrite (read_table _ _ _ _ _ _ _ _ (lookup_has _ _ _ T D13) Ke).
    rewrite (read_number _ _ _ _ _ _ _ (lookup_has _ _ _ T D14)).
    rewrite (read_number _ _ _ _ _ _ _ (lookup_has _ _ _ T D15)). reflexivity.
  - assert (lookup t (lit "seccomp_rule_name") = LNil) as E.
    { destruct D11 as [D|D]; [apply lookup_lacks, D|apply lookup_has; assumption]. }
    rewrite (read_nil _ _ _ _ _ E).
    rewrite (read_table _ _ _ _ _ _ _ _ (lookup_has _ _ _ T D12) Ka).
    rewrite (read_table _ _ _ _ _ _ _ _ (lookup_has _ _ _ T D13) Ke).
    rewrite (read_number _ _ _ _ _ _ _ (lookup_has _ _ _ T D14)).
    rewrite (read_number _ _ _ _ _ _ _ (lookup_has _ _ _ T D15)). reflexivity.
Qed.

(** ** What is accepted *)

Lemma lookup_is t name v : lookup t (lit name) = v -> v <> LNil -> has t name v.
Proof. intros <- N. destruct (lookup_In t name) as [H|H]; [contradiction|exact H]. Qed.

Lemma inv_number t name masks i c c' : read_args t ((name, TNumber, false) :: masks) i c = inl c' ->
  exists n, has t name (LNumber n) /\ exists i c, read_args t masks i c = inl c'.
Proof.
  cbn [read_args]. destruct (lookup t (lit name)) eqn:E; cbn [has_type negb andb is_nil]; try discriminate.
  intros H. exists n. split; [apply lookup_is; [exact E|discriminate]|eauto].
Qed.
Lemma inv_string t name masks i c c' : read_args t ((name, TString, false) :: masks) i c = inl c' ->
  exists s, has t name (LString s) /\ exists i c, read_args t masks i c = inl c'.
Proof.
  cbn [read_args]. destruct (lookup t (lit name)) eqn:E; cbn [has_type negb andb is_nil]; try discriminate.
  intros H. exists s. split; [apply lookup_is; [exact E|discriminate]|eauto].
Qed.
Lemma inv_rule t name masks i c c' : is_table t -> read_args t ((name, TString, true) :: masks) i c = inl c' ->
  exists o, match o with
            | Some s => has t name (LString s)
            | None => lacks t name \/ has t name LNil
            end /\ exists i c, read_args t masks i c = inl c'.
Proof.
  intros T. cbn [read_args]. destruct (lookup t (lit name)) eqn:E; cbn [has_type negb andb is_nil]; try discriminate.
  - intros H. exists None. split; [|eauto].
    destruct (lookup_In t name) as [L|L]; [|rewrite E in L; right; exact L].
    assert (lacks t name \/ has t name LNil) as X; [|exact X].
    clear H. assert ((exists v, has t name v) \/ lacks t name) as [[v V]|N].
    { unfold lacks, has. generalize (lit name) as n. clear. intros n. induction t as [|[k w] t IH]; [right; intros v []|].
      destruct IH as [[v V]|N]; [left; exists v; right; exact V|].
      destruct k as [| | |s| |]; try (right; intros v [V|V]; [discriminate V|exact (N v V)]).
      destruct (str_eqb s n) eqn:X.
      - apply str_eqb_eq in X. subst. left. exists w. left. reflexivity.
      - right. intros v [V|V]; [|exact (N v V)]. injection V as -> _.
        rewrite (proj2 (str_eqb_eq n n) eq_refl) in X. discriminate X. }
    + right. rewrite (lookup_has t name v T V) in E. subst. exact V.
    + left. exact N.
  - intros H. exists (Some s). split; [apply lookup_is; [exact E|discriminate]|eauto].
Qed.
Lemma inv_table t name masks i c c' : read_args t ((name, TTable, false) :: masks) i c = inl c' ->
  exists ss, (exists l, has t name (LTable l) /\ strings l ss /\ List.length l <= 255) /\ exists i c, read_args t masks i c = inl c'.
Proof.
  cbn [read_args]. destruct (lookup t (lit name)) eqn:E; cbn [has_type negb andb is_nil]; try discriminate.
  destruct (checkstringtable l 255) as [r|] eqn:K; [|discriminate]. intros H.
  destruct (checkstringtable_only _ _ _ K) as (ss & S & L & _). exists ss.
  split; [|eauto]. exists l. split; [apply lookup_is; [exact E|discriminate]|auto].
Qed.

Lemma some_inj {A} (x y : A) : Some x = Some y -> x = y.
Proof. intros H. injection H as H. exact H. Qed.

Lemma accepted_masks t i c c' : is_table t -> read_args t arg_mask i c = inl c' -> exists p, describes t p.
Proof.
  unfold arg_mask. intros T R.
  apply inv_number in R as (cpu & D1 & i1 & c1 & R). apply inv_number in R as (real & D2 & i2 & c2 & R).
  apply inv_number in R as (memory & D3 & i3 & c3 & R). apply inv_number in R as (procs & D4 & i4 & c4 & R).
  apply inv_number in R as (output & D5 & i5 & c5 & R). apply inv_string in R as (exe & D6 & i6 & c6 & R).
  apply inv_string in R as (inp & D7 & i7 & c7 & R). apply inv_string in R as (out & D8 & i8 & c8 & R).
  apply inv_string in R as (err & D9 & i9 & c9 & R). apply inv_string in R as (log & D10 & i10 & c10 & R).
  apply (inv_rule _ _ _ _ _ _ T) in R as (rule & D11 & i11 & c11 & R).
  apply inv_table in R as (la & D12 & i12 & c12 & R). apply inv_table in R as (le & D13 & i13 & c13 & R).
  apply inv_number in R as (u & D14 & i14 & c14 & R). apply inv_number in R as (g & D15 & i15 & c15 & R).
  exists (mkLP cpu real memory procs output exe inp out err log rule la le u g). constructor; assumption.
Qed.

Lemma accepted_described t c : is_table t -> lua_config [LTable t] = Some c -> exists p, describes t p /\ c = config_for p.
Proof.
  intros T H. assert (exists p, describes t p) as [p D].
  { unfold lua_config, last_table in H. cbn [hd_error last] in H.
    destruct (read_config t) as [c'|] eqn:R; [|discriminate H].
    exact (accepted_masks t 0 zero_config c' T R). }
  exists p. split; [exact D|]. rewrite (described t p T D) in H. symmetry. exact (some_inj _ _ H).
Qed.

Lemma cast_int_of n : is_int n -> cast_int n = n.
Proof. intros H. apply cast_int_id. exact H. Qed.
Lemma map_strdup l : Forall no_nul l -> map strdup l = l.
Proof. induction 1 as [|s l N F IH]; [reflexivity|]. cbn. rewrite strdup_id, IH by exact N. reflexivity. Qed.

Lemma modest_carried p : modest p -> carries p (config_for p).
Proof.
  intros [(I1 & I2 & I3) (S1 & S2) (U1 & U2) (N1 & N2 & N3 & N4 & N5) R (L1 & L2)]. unfold config_for.
  change (2 ^ 32)%Z with U32_MOD in *.
  constructor; cbn [max_cpu_time max_real_time max_memory max_process_number max_output_size exe_path input_path
    output_path error_path log_path seccomp_rule_name args env uid gid]; rewrite ?store_low_0;
    try (apply cast_int_of; assumption); try (apply Z.mod_small; assumption); try (rewrite strdup_id by assumption; reflexivity);
    try (rewrite map_strdup by assumption; reflexivity).
  - destruct (lp_rule p) as [s|] eqn:E; [|reflexivity]. cbn. rewrite strdup_id by (apply R; reflexivity). reflexivity.
Qed.

(** ** No program is ever run *)

Lemma config_stack stack c : lua_config stack = Some c -> max_stack c = 0%Z.
Proof.
  unfold lua_config. destruct (last_table stack) as [t|]; [|discriminate].
  assert (forall masks i c0 c1, max_stack c0 = 0%Z -> read_args t masks i c0 = inl c1 -> max_stack c1 = 0%Z) as G.
  { induction masks as [|[[name ty] na] masks IH]; intros i c0 c1 Z H; cbn [read_args] in H.
    - injection H as <-. exact Z.
    - destruct (negb (has_type ty (lookup t (lit name))) && negb (na && is_nil (lookup t (lit name)))); [discriminate H|].
      destruct (lookup t (lit name)) as [|b|n|s|l|]; try (eapply IH; [|exact H]; exact Z).
      + eapply IH; [|exact H]. unfold store_nil. do 11 (destruct i as [|i]; [exact Z|]). exact Z.
      + eapply IH; [|exact H]. unfold store_number. do 15 (destruct i as [|i]; [exact Z|]). exact Z.
      + eapply IH; [|exact H]. unfold store_string. do 11 (destruct i as [|i]; [exact Z|]). exact Z.
      + destruct (checkstringtable l 255); [|discriminate H]. eapply IH; [|exact H].
        unfold store_table. do 13 (destruct i as [|i]; [exact Z|]). exact Z. }
  destruct (read_config t) as [c'|] eqn:R; [|discriminate]. intros H. injection H as <-.
  exact (G arg_mask 0 zero_config c' eq_refl R).
Qed.

Lemma config_rejected c : max_stack c = 0%Z -> config_invalid c = true.
Proof.
  intros E. unfold config_invalid. rewrite E. change (0 <? 1)%Z with true.
  destruct ((max_cpu_time c <? 1)%Z), (max_real_time c <? 1)%Z; cbn; rewrite ?orb_true_r; auto.
Qed.

Lemma never_runs stack c e : lua_config stack = Some c ->
  exists r ef, run c e = Returns (Val r) ef /\ ~ In EfFork ef /\
    error r = (if (e_getuid e =? 0)%Z then INVALID_CONFIG else ROOT_REQUIRED).
Proof.
  intros H. apply config_stack, config_rejected in H. unfold run. destruct (e_getuid e =? 0)%Z; cbn [negb].
  - rewrite H. eexists _, _. split; [reflexivity|]. split; [|reflexivity]. intros [X|[X|[X|[]]]]; discriminate X.
  - eexists _, _. split; [reflexivity|]. split; [|reflexivity]. intros [X|[X|[X|[]]]]; discriminate X.
Qed.

Lemma lua_reports f t v : global_judge f [LTable t] = LReturns v ->
  exists c l, lua_config [LTable t] = Some c /\ v = LTable l /\ is_table l /\
    has l "cpu_time" (LNumber (cpu_time (f c))) /\ has l "real_time" (LNumber (real_time (f c))) /\
    has l "memory" (LNumber (memory (f c))) /\ has l "signal" (LNumber (signal (f c))) /\
    has l "exit_code" (LNumber (exit_code (f c))) /\ has l "error" (LNumber (error (f c))) /\
    has l "result" (LNumber (verdict (f c))) /\ List.length l = 7.
Proof.
  unfold global_judge, lua_config. destruct (last_table [LTable t]) as [t'|]; [|discriminate].
  destruct (read_config t') as [c|]; [|discriminate]. cbn [List.length Nat.eqb].
  intros H. injection H as <-. exists c. eexists. split; [reflexivity|]. split; [reflexivity|].
  unfold has. split.
  - unfold is_table. cbn [map fst]. repeat (constructor; [cbn; intros X; repeat (destruct X as [X|X]; [discriminate X|]); exact X|]).
    constructor.
  - cbn [In List.length]. repeat split; auto 10.
Qed.

Lemma lua_extra f t1 t2 c : lua_config [LTable t1; LTable t2] = Some c -> lua_config [LTable t2] = Some c /\
  global_judge f [LTable t1; LTable t2] = LAbort.
Proof.
  unfold lua_config, global_judge, last_table. cbn [hd_error last].
  destruct (read_config t2); [|discriminate]. intros H. split; [exact H|reflexivity].
Qed.

Lemma unlimited_memory p : lp_memory p = (-1)%Z -> max_memory (config_for p) = 4294967295%Z.
Proof. intros E. unfold config_for. cbn [max_memory]. rewrite E. reflexivity. Qed.
Lemma unlimited_output p : lp_output p = (-1)%Z -> max_output_size (config_for p) = 4294967295%Z.
Proof. intros E. unfold config_for. cbn [max_output_size]. rewrite E. reflexivity. Qed.

Lemma accepted_iff t : is_table t -> (exists c, lua_config [LTable t] = Some c) <-> (exists p, describes t p).
Proof.
  intros T. split.
  - intros [c H]. destruct (accepted_described t c T H) as (p & D & _). eauto.
  - intros [p D]. exists (config_for p). exact (described t p T D).
Qed.
Lemma described_carried t p : is_table t -> describes t p -> modest p -> exists c, lua_config [LTable t] = Some c /\ carries p c.
Proof. intros T D M. exists (config_for p). split; [exact (described t p T D)|exact (modest_carried p M)]. Qed.
Lemma unlimited_stored t p c : is_table t -> describes t p -> lua_config [LTable t] = Some c ->
  (lp_memory p = -1 -> max_memory c = 4294967295)%Z /\ (lp_output p = -1 -> max_output_size c = 4294967295)%Z.
Proof.
  intros T D H. rewrite (described t p T D) in H. apply some_inj in H. subst c.
  split; [exact (unlimited_memory p)|exact (unlimited_output p)].
Qed.
Lemma lua_outcome f t : is_table t ->
  (exists p, describes t p) /\ (exists v, global_judge f [LTable t] = LReturns v) \/
  (~ exists p, describes t p) /\ (exists msg, global_judge f [LTable t] = LError msg).
Proof.
  intros T. pose proof (accepted_iff t T) as A. unfold lua_config, global_judge, last_table in *. cbn [hd_error last List.length Nat.eqb] in *.
  destruct (read_config t) as [c|msg].
  - left. split; [apply A; eauto|eauto].
  - right. split; [|eauto]. intros P. apply A in P as [c P]. discriminate P.
Qed.
