(** C86, C87: histories in which limits and reports mislead. *)
From Coq Require Import ZArith Bool List Arith String Lia.
From Verif.Base Require Import CInt CStr.
From Verif.Model Require Import Config Runner Processes.
From Verif.Spec Require Import ProcSpec ProcSamples.
From Verif.Proofs Require Import ProcBase ProcLimit ProcAccount ProcResults ProcFilter.
Import ListNotations.
Open Scope list_scope.
Open Scope Z_scope.

(** ** Others of the same user *)
Lemma count_cons : forall u a w, count u (a :: w) = (if of_user u a then 1 else 0) + count u w.
Proof. intros. unfold count. cbn [filter]. destruct (of_user u a); cbn [List.length]; lia. Qed.
Lemma count_put : forall u w p o, (p < List.length w)%nat ->
  count u (put w p o) = count u (put w p None) + if of_user u o then 1 else 0.
Proof.
  intros u w. induction w as [|a w IH]; intros [|p] o L; cbn in L; try lia.
  - cbn [put]. rewrite !count_cons. cbn [of_user]. lia.
  - cbn [put]. rewrite !count_cons, IH by lia. lia.
Qed.
Lemma put_put : forall w p a b, put (put w p a) p b = put w p b.
Proof. induction w as [|c w IH]; intros [|p] a b; cbn; try reflexivity. f_equal. apply IH. Qed.
Lemma shared_user : forall evs w x c m r, history [] evs = Some w -> In (Starts x c m) evs ->
  max_process_number c <> UNLIMITED -> uid c <> keep_user -> uid c <> 0 ->
  get w x = Some r -> at_stage Limited r = true -> max_process_number c < count (uid c) (put w x None) ->
  step w (Drops x false) = None /\
  forall w', step w (Drops x true) = Some w' -> step w' (Execs x) = None.
Proof.
  intros evs w x c m r H I Nn Nu N0 G Sp Many.
  destruct (process_limit_inv (fun k => k <= max_process_number c) x c m _ _ (Z.le_refl _) (fun k K => K) eq_refl Nn eq_refl Nu evs w) as (B & _); auto.
  { intros e _ p k _ k0 K0 Le. lia. }
  pose proof (at_stage_is _ _ Sp) as (Sr & Al).
  pose proof (sh_self _ _ _ (shape_history x evs w H)) as Ix.
  destruct (proj1 B x r Ix G) as (C & _ & _ & _ & Li). specialize (Li (or_introl Sr)).
  pose proof (get_lt _ _ _ G) as L.
  assert (K : forall fl, count (uid c) (put w x (Some (dropped fl r))) = count (uid c) (put w x None) + 1).
  { intro fl. rewrite count_put by exact L. cbn [of_user dropped r_user]. rewrite C.
    destruct (keeps_reflect (uid c)); [contradiction|]. rewrite Z.eqb_refl. reflexivity. }
  split.
  - cbn [step]. rewrite G. cbv zeta. rewrite Sp. cbn [andb]. rewrite C.
    destruct (keeps_reflect (uid c)) as [|Nu']; [contradiction|]. cbn [dropped r_user r_limit]. fold (dropped false r).
    rewrite C. destruct (keeps_reflect (uid c)); [contradiction|].
    rewrite K, Li. unfold note_allowed. cbn [above].
    destruct (Z.eqb_spec (uid c) 0); [contradiction|]. cbn [orb].
    destruct (Z.ltb_spec (max_process_number c) (count (uid c) (put w x None) + 1 - 1)); [reflexivity|lia].
  - intros w' T. apply step_stepped in T. cbn [stepped] in T. destruct T as (r0 & G0 & _ & _ & ->).
    rewrite G in G0. injection G0 as <-. cbn [step]. rewrite get_put_same by exact L.
    unfold exec_refused. cbn [dropped r_flag r_user r_limit]. fold (dropped true r). rewrite C.
    destruct (keeps_reflect (uid c)); [contradiction|]. rewrite K, Li. cbn [above].
    destruct (Z.ltb_spec (max_process_number c) (count (uid c) (put w x None) + 1)); [|lia].
    cbn [andb negb]. rewrite andb_false_r. reflexivity.
Qed.
Lemma refused_error : forall evs w v x c m status s e res, history [] evs = Some v -> In (Starts x c m) evs ->
  seccomp_rule_name c = None -> step v (Refused x status) = Some w -> reported w x s e = Some (Val res) ->
  verdict res = SYSTEM_ERROR.
Proof.
  intros evs w v x c m status s e res H I Sc T R. apply step_stepped in T. cbn [stepped] in T.
  destruct T as (r & G & _ & _ & Er & ->). apply reported_inv in R. destruct R as (r' & st & G' & _ & E & J).
  rewrite get_put_same in G' by eauto using get_lt. injection G' as <-. injection E as <-.
  unfold error_exit_status in Er. rewrite (conf_history _ _ _ _ _ _ H I G), Sc in Er. apply Z.eqb_eq in Er. subst status.
  unfold judge in J. destruct (real_time_ms s e) as [real|]; [|discriminate]. cbn in J. injection J as <-. reflexivity.
Qed.
Lemma crowded_case : exists w, history [] crowded = Some w /\ family 2 crowded = [2%nat] /\
  (forall status, ~ In (Ends 2 status) crowded) /\
  exists res, reported w 2 (mkTv 0 0) (mkTv 0 0) = Some (Val res) /\ verdict res = SYSTEM_ERROR.
Proof.
  eexists. split; [vm_compute; reflexivity|]. split; [reflexivity|]. split.
  - intros status A. unfold crowded, sets_up in A. cbn [app] in A.
    repeat (destruct A as [A|A]; [discriminate A|]). exact A.
  - eexists. split; vm_compute; reflexivity.
Qed.

(** ** Root *)
Lemma nones_get : forall (r : process) k l i, (i < k)%nat -> get (Some r :: repeat None k ++ l) (S i) = None.
Proof.
  intros r k l i L. unfold get. cbn [nth_error]. rewrite nth_error_app1 by (rewrite repeat_length; exact L).
  destruct (nth_error (repeat None k) i) as [a|] eqn:E; [|reflexivity].
  apply nth_error_In, repeat_spec in E. rewrite E. reflexivity.
Qed.
Lemma put_end : forall (l : machine) a b, put (l ++ [a]) (List.length l) b = l ++ [b].
Proof. induction l as [|c l IH]; intros a b; cbn; [reflexivity|]. f_equal. apply IH. Qed.
Lemma get_end : forall (l : machine) a, get (l ++ [a]) (List.length l) = a.
Proof.
  intros l a. unfold get. rewrite nth_error_app2 by lia. rewrite Nat.sub_diag. cbn. destruct a; reflexivity.
Qed.
Lemma repeat_snoc : forall {A} (a : A) k, repeat a k ++ [a] = repeat a (S k).
Proof. intros A a k. induction k as [|k IH]; [reflexivity|]. cbn in *. rewrite IH. reflexivity. Qed.

(** The first process of a program that runs. *)
Definition runner (c : config) (u : Z) (l : option Z) (m : Z) : process :=
  mkProcess c Prog u l false Judge None 0 0 m m 0.
Definition child_of (r : process) : process := copy_of 0 r.

Lemma count_repeat_same : forall u (r : process) k, r_user r = u -> count u (repeat (Some r) k) = Z.of_nat k.
Proof.
  intros u r k E. induction k as [|k IH]; [reflexivity|]. cbn [repeat]. rewrite count_cons, IH. cbn [of_user].
  rewrite E, Z.eqb_refl. lia.
Qed.
Lemma count_repeat_none : forall u k, count u (repeat None k) = 0.
Proof. intros u k. induction k as [|k IH]; [reflexivity|]. cbn [repeat]. rewrite count_cons, IH. reflexivity. Qed.

(** at_once, from a table of i such children. *)
Lemma at_once_history : forall call m r, at_stage Prog r = true -> fork_call (r_conf r) call = true -> (r_limit r = None \/ r_user r = 0) -> 0 <= m -> r_mem r = m ->
  forall k i, history (Some r :: repeat (Some (copy_of 0 r)) i) (at_once call i k m) =
    Some (Some r :: repeat (Some (copy_of 0 r)) (i + k)).
Proof.
  intros call m r Sp Fc Free Nm Em k. induction k as [|k IH]; intros i.
  - rewrite Nat.add_0_r. reflexivity.
  - cbn [at_once history].
    assert (S1 : step (Some r :: repeat (Some (copy_of 0 r)) i) (Forks 0 (S i) call) =
      Some ((Some r :: repeat (Some (copy_of 0 r)) i) ++ [Some (copy_of 0 r)])).
    { cbn [step]. change (get (Some r :: repeat (Some (copy_of 0 r)) i) 0) with (Some r). cbv iota beta.
      rewrite Sp. cbn [List.length]. rewrite repeat_length, Nat.eqb_refl, Fc. cbn [andb]. unfold fork_allowed, guard.
      destruct Free as [-> | ->]; [cbn [above negb]; rewrite orb_true_r; reflexivity | reflexivity]. }
    rewrite S1. cbn [app]. rewrite repeat_snoc.
    assert (S2 : step (Some r :: repeat (Some (copy_of 0 r)) (S i)) (Holds (S i) m) =
      Some (Some r :: repeat (Some (copy_of 0 r)) (S i))).
    { rewrite <- repeat_snoc. change (Some r :: repeat (Some (copy_of 0 r)) i ++ [Some (copy_of 0 r)]) with
        ((Some r :: repeat (Some (copy_of 0 r)) i) ++ [Some (copy_of 0 r)]).
      assert (Le : S i = List.length (Some r :: repeat (Some (copy_of 0 r)) i)) by (cbn; rewrite repeat_length; reflexivity).
      cbn [step]. rewrite Le, get_end, put_end.
      unfold alive, guard. cbn [copy_of r_end andb]. destruct (Z.leb_spec 0 m); [|lia]. f_equal. f_equal. f_equal. f_equal.
      unfold holding, copy_of. cbn. rewrite Em. f_equal. lia. }
    rewrite S2, IH. f_equal. f_equal. f_equal. lia.
Qed.
Lemma at_once_family : forall call m k i fam, In_ 0 fam = true ->
  forall q, In q (fold_left grow (at_once call i k m) fam) <-> In q fam \/ (i < q <= i + k)%nat.
Proof.
  intros call m k. induction k as [|k IH]; intros i fam Z0 q.
  - cbn. split; [auto|]. intros [D|D]; [exact D|lia].
  - cbn [at_once fold_left grow]. rewrite Z0. rewrite IH by (apply In__spec; right; apply In__spec; exact Z0).
    cbn [In]. split.
    + intros [[D|D]|D]; [right; lia | left; exact D | right; lia].
    + intros [D|D]; [auto|]. destruct (Nat.eq_dec q (S i)) as [->|N]; [auto|right; lia].
Qed.
Lemma at_once_fam_list : forall call m k i fam, In_ 0 fam = true ->
  fold_left grow (at_once call i k m) fam = rev (seq (S i) k) ++ fam.
Proof.
  intros call m k. induction k as [|k IH]; intros i fam Z0; [reflexivity|].
  cbn [at_once fold_left grow]. rewrite Z0, IH by (apply In__spec; right; apply In__spec; exact Z0).
  cbn [seq rev]. rewrite <- app_assoc. reflexivity.
Qed.
Lemma many_gets : forall r k i, (i < k)%nat -> get (Some r :: repeat (Some (copy_of 0 r)) k) (S i) = Some (copy_of 0 r).
Proof.
  intros r k i L. unfold get. cbn [nth_error]. rewrite nth_error_repeat by exact L. reflexivity.
Qed.

Lemma root_unlimited : forall k, exists evs w, history [] evs = Some w /\ In (Starts 0 (cfg 1000 1000000 1 keep_user) 0) evs /\
  size (family 0 evs) w = Z.of_nat k + 1.
Proof.
  intro k. set (c := cfg 1000 1000000 1 keep_user). set (r := mkProcess c Prog 0 (Some 1) false Judge None 0 0 0 0 0).
  exists (sets_up 0 c 0 ++ at_once "fork" 0 k 0), (Some r :: repeat (Some (copy_of 0 r)) k). split; [|split].
  - rewrite history_app. replace (history [] (sets_up 0 c 0)) with (Some [Some r]) by (vm_compute; reflexivity).
    exact (at_once_history "fork" 0 r eq_refl eq_refl (or_intror eq_refl) ltac:(lia) eq_refl k 0).
  - left. reflexivity.
  - unfold family. rewrite fold_left_app. change (fold_left grow (sets_up 0 c 0) [0%nat]) with [0%nat].
    rewrite at_once_fam_list by reflexivity. unfold size.
    assert (E : forall l, (forall q, In q l -> exists_in (Some r :: repeat (Some (copy_of 0 r)) k) q = true) ->
      filter (exists_in (Some r :: repeat (Some (copy_of 0 r)) k)) l = l).
    { induction l as [|a l IH]; intro A; [reflexivity|]. cbn [filter]. rewrite (A a (or_introl eq_refl)).
      f_equal. apply IH. intros q Q. apply A. right. exact Q. }
    rewrite E.
    + rewrite app_length, rev_length, seq_length. cbn. lia.
    + intros q Q. apply in_app_or in Q. destruct Q as [Q|[<-|[]]]; [|reflexivity].
      apply in_rev, in_seq in Q. destruct q as [|q]; [lia|]. unfold exists_in. rewrite many_gets by lia. reflexivity.
Qed.

(** ** Memory together *)
Lemma memory_together : forall rule call k m limit, In call (can_fork_by rule) -> 0 <= m -> 1 <= limit -> 1024 * m <= limit <= LONG_MAX ->
  exists c evs w status w', history [] evs = Some w /\ In (Starts 0 c m) evs /\ seccomp_rule_name c = rule /\ max_memory c = limit /\
    resident (family 0 evs) w = (Z.of_nat k + 1) * m /\
    step w (Ends 0 status) = Some w' /\
    exists res, reported w' 0 (mkTv 0 0) (mkTv 0 0) = Some (Val res) /\ verdict res = SUCCESS /\ memory res = 1024 * m.
Proof.
  intros rule call k m limit Fc Nm Nl Le. set (c := cfgr rule 1000 limit UNLIMITED 1000).
  apply (fork_call_spec c) in Fc.
  set (r := mkProcess c Prog 1000 None false Judge None 0 0 m m 0).
  assert (St : history [] (sets_up 0 c m) = Some [Some r]).
  { assert (V : config_invalid c = false).
    { unfold config_invalid, c, cfgr. cbn [max_cpu_time max_real_time max_stack max_memory max_process_number max_output_size].
      destruct (Z.ltb_spec limit 1); [lia|]. reflexivity. }
    unfold sets_up. cbn [history]. cbn [step]. rewrite V. destruct (Z.leb_spec 0 m); [|lia]. reflexivity. }
  exists c, (sets_up 0 c m ++ at_once call 0 k m), (Some r :: repeat (Some (copy_of 0 r)) k), 0.
  eexists. split; [|split; [|split; [|split; [|split; [|split]]]]].
  - rewrite history_app, St. exact (at_once_history call m r eq_refl Fc (or_introl eq_refl) Nm eq_refl k 0).
  - left. reflexivity.
  - reflexivity.
  - reflexivity.
  - unfold family. rewrite fold_left_app. change (fold_left grow (sets_up 0 c m) [0%nat]) with [0%nat].
    rewrite at_once_fam_list by reflexivity. unfold resident.
    assert (E : forall l, (forall q, In q l -> resident_of (Some r :: repeat (Some (copy_of 0 r)) k) q = m) ->
      fold_right (fun p s => resident_of (Some r :: repeat (Some (copy_of 0 r)) k) p + s) 0 l = Z.of_nat (List.length l) * m).
    { induction l as [|a l IH]; intro A; [reflexivity|]. cbn [fold_right List.length]. rewrite (A a (or_introl eq_refl)), IH; [lia|].
      intros q Q. apply A. right. exact Q. }
    rewrite E.
    + rewrite app_length, rev_length, seq_length. cbn [List.length]. lia.
    + intros q Q. apply in_app_or in Q. destruct Q as [Q|[<-|[]]]; [|reflexivity].
      apply in_rev, in_seq in Q. destruct q as [|q]; [lia|]. unfold resident_of. rewrite many_gets by lia. reflexivity.
  - cbn [step]. change (get (Some r :: repeat (Some (copy_of 0 r)) k) 0) with (Some r). reflexivity.
  - cbn [map adopted r r_parent put]. unfold reported. unfold get at 1. cbn [nth_error ended r_parent r_end r_conf].
    unfold judge, usage. cbn [ended r_utime r_cutime r_peak r_cpeak r].
    replace (Z.max m 0) with m by lia. change (real_time_ms (mkTv 0 0) (mkTv 0 0)) with (Val 0). cbn [cbind].
    change (WIFSIGNALED 0) with false. change (0 =? SIGUSR1) with false. cbv iota zeta.
    unfold cpu_time_ms. change (mkTv ((0 + 0) / 1000000) ((0 + 0) mod 1000000)) with (mkTv 0 0). cbn [ru_utime tv_sec tv_usec].
    change (long_op (0 * 1000)) with (Val 0). cbn [cbind]. change (long_op (0 + cdiv 0 1000)) with (Val 0). cbn [cbind].
    change (cast_int 0) with 0. unfold memory_bytes. cbn [ru_maxrss]. unfold long_op.
    assert (IL : in_long (m * 1024) = true).
    { unfold in_long. apply andb_true_iff. split; apply Z.leb_le; unfold LONG_MIN in *; lia. }
    rewrite IL. cbn [cbind]. eexists. split; [reflexivity|]. split.
    + unfold decide. change (WEXITSTATUS 0) with 0. cbn [verdict].
      change (negb (0 =? 0)) with false. change (0 =? SIGSEGV) with false. cbv iota zeta.
      change (max_memory (r_conf r)) with limit. change (max_real_time (r_conf r)) with UNLIMITED.
      change (max_cpu_time (r_conf r)) with 1000.
      destruct (Z.ltb_spec limit (m * 1024)); [lia|]. destruct (limit =? UNLIMITED); reflexivity.
    + cbn [memory]. lia.
Qed.

(** ** Time nobody is told of *)
Lemma one_by_one_history : forall call t r, at_stage Prog r = true -> fork_call (r_conf r) call = true -> r_limit r = Some 2 -> r_user r <> 0 -> r_parent r = Judge -> 0 <= t ->
  forall k i, history (Some r :: repeat None i) (one_by_one call i k t) = Some (Some r :: repeat None (i + k)).
Proof.
  intros call t r Sp Fc Li Nu Pa Nt k. induction k as [|k IH]; intros i.
  - rewrite Nat.add_0_r. reflexivity.
  - cbn [one_by_one history].
    assert (Le : S i = List.length (Some r :: repeat (@None process) i)) by (cbn; rewrite repeat_length; reflexivity).
    assert (S1 : step (Some r :: repeat None i) (Forks 0 (S i) call) = Some ((Some r :: repeat None i) ++ [Some (copy_of 0 r)])).
    { cbn [step]. change (get (Some r :: repeat None i) 0) with (Some r). cbv iota beta.
      rewrite Sp, <- Le, Nat.eqb_refl, Fc. cbn [andb]. unfold fork_allowed, guard. rewrite count_cons, count_repeat_none, Li.
      cbn [of_user]. rewrite Z.eqb_refl. cbn [above]. change (2 <? 1 + 0 + 1) with false. cbn [negb]. rewrite orb_true_r. reflexivity. }
    rewrite S1.
    assert (M : map (adopted (S i)) (Some r :: repeat None i) = Some r :: repeat None i).
    { cbn [map adopted]. rewrite Pa. f_equal. clear. generalize (S i). intro j. induction i as [|i IH]; [reflexivity|]. cbn. rewrite IH. reflexivity. }
    assert (R : (Some r :: repeat None i) ++ [None] = Some r :: repeat None (S i)) by (cbn [app]; rewrite repeat_snoc; reflexivity).
    remember (Some r :: repeat None i) as w0 eqn:Ew0. clear S1 Ew0.
    assert (S2 : step (w0 ++ [Some (copy_of 0 r)]) (Runs (S i) t) = Some (w0 ++ [Some (ran t (copy_of 0 r))])).
    { cbn [step]. rewrite Le, get_end. unfold alive. cbn [copy_of r_end]. destruct (Z.leb_spec 0 t); [|lia].
      cbn [andb guard]. rewrite put_end. reflexivity. }
    assert (S3 : step (w0 ++ [Some (ran t (copy_of 0 r))]) (Ends (S i) 0) = Some (w0 ++ [Some (ended 0 (ran t (copy_of 0 r)))])).
    { cbn [step]. rewrite Le at 1. rewrite get_end. unfold alive. cbn [copy_of ran r_end guard]. fold (copy_of 0 r). fold (ran t (copy_of 0 r)). rewrite map_app, M.
      replace (map (adopted (S i)) [Some (ran t (copy_of 0 r))]) with [Some (ran t (copy_of 0 r))] by reflexivity.
      rewrite Le, put_end. reflexivity. }
    assert (S4 : step (w0 ++ [Some (ended 0 (ran t (copy_of 0 r)))]) (Vanishes (S i)) = Some (w0 ++ [None])).
    { cbn [step]. rewrite Le, get_end. unfold alive. cbn [copy_of ran ended r_parent r_end negb guard]. rewrite put_end. reflexivity. }
    rewrite S2, S3, S4, R, IH. f_equal. f_equal. f_equal. lia.
Qed.
Lemma one_by_one_spent : forall call t k i fam es, In_ 0 fam = true -> (forall f, spent f es = 0) ->
  spent fam (one_by_one call i k t ++ es) = Z.of_nat k * t.
Proof.
  intros call t k. induction k as [|k IH]; intros i fam es Z0 E.
  - cbn [one_by_one app]. rewrite E. reflexivity.
  - cbn [one_by_one app spent grow]. rewrite Z0. rewrite IH; [|apply In__spec; right; apply In__spec; exact Z0|exact E].
    assert (A : In_ (S i) (S i :: fam) = true) by (apply In__spec; left; reflexivity). rewrite A. lia.
Qed.
Lemma one_by_one_own : forall call t k i p es, 0 <= t -> (forall p, own_time p es = 0) ->
  own_time p (one_by_one call i k t ++ es) = if (i <? p)%nat && (p <=? i + k)%nat then t else 0.
Proof.
  intros call t k. induction k as [|k IH]; intros i p es Nt E.
  - cbn [one_by_one app]. rewrite E. destruct (Nat.ltb_spec i p), (Nat.leb_spec p (i + 0)); cbn; try reflexivity. lia.
  - cbn [one_by_one app own_time]. rewrite IH by assumption.
    destruct (Nat.eqb_spec (S i) p) as [<-|N].
    + destruct (Nat.ltb_spec (S i) (S i)); [lia|]. cbn [andb].
      destruct (Nat.ltb_spec i (S i)); [|lia]. destruct (Nat.leb_spec (S i) (i + S k)); [|lia]. cbn. lia.
    + replace (S i + k)%nat with (i + S k)%nat by lia.
      destruct (Nat.ltb_spec (S i) p), (Nat.ltb_spec i p); cbn [andb]; try lia;
        destruct (Nat.leb_spec p (i + S k)); lia.
Qed.
Lemma time_unseen : forall rule call cpu T L, In call (can_fork_by rule) -> 1 <= cpu -> 0 < L ->
  exists c evs w, history [] evs = Some w /\ In (Starts 0 c 0) evs /\ seccomp_rule_name c = rule /\ max_cpu_time c = cpu /\
    max_process_number c = 2 /\ uid c = 1000 /\ T <= spent [0%nat] evs /\ (forall p, own_time p evs <= L) /\
    exists res, reported w 0 (mkTv 0 0) (mkTv 0 0) = Some (Val res) /\ verdict res = SUCCESS /\ cpu_time res = 0.
Proof.
  intros rule call cpu T L Fc Nc NL. set (c := cfgr rule cpu 1000000 2 1000).
  apply (fork_call_spec c) in Fc. set (r := mkProcess c Prog 1000 (Some 2) false Judge None 0 0 0 0 0).
  set (k := Z.to_nat T).
  assert (St : history [] (sets_up 0 c 0) = Some [Some r]).
  { assert (V : config_invalid c = false).
    { unfold config_invalid, c, cfgr. cbn [max_cpu_time max_real_time max_stack max_memory max_process_number max_output_size].
      destruct (Z.ltb_spec cpu 1); [lia|]. reflexivity. }
    unfold sets_up. cbn [history]. cbn [step]. rewrite V. reflexivity. }
  assert (Hi : history [] (sets_up 0 c 0 ++ one_by_one call 0 k L) = Some (Some r :: repeat None k)).
  { rewrite history_app, St. apply (one_by_one_history call L r eq_refl Fc eq_refl ltac:(discriminate) eq_refl ltac:(lia) k 0). }
  exists c, ((sets_up 0 c 0 ++ one_by_one call 0 k L) ++ [Ends 0 0]), (Some (ended 0 r) :: repeat None k).
  split; [|split; [|split; [|split; [|split; [|split; [|split; [|split]]]]]]].
  - rewrite history_app, Hi. cbn [history step]. change (get (Some r :: repeat None k) 0) with (Some r). cbn [alive r r_end guard put map].
    f_equal. f_equal. clear. induction k as [|k IH]; [reflexivity|]. cbn. rewrite IH. reflexivity.
  - left. reflexivity.
  - reflexivity.
  - reflexivity.
  - reflexivity.
  - reflexivity.
  - rewrite <- app_assoc. cbn [sets_up app spent grow]. rewrite one_by_one_spent; [|reflexivity|reflexivity].
    unfold k. destruct (Z.le_ge_cases T 0) as [N|N]; [|rewrite Z2Nat.id by lia; nia].
    pose proof (Nat2Z.is_nonneg (Z.to_nat T)). nia.
  - intro p. rewrite <- app_assoc. cbn [sets_up app own_time]. rewrite one_by_one_own; [|lia|reflexivity].
    destruct (_ && _); lia.
  - unfold reported. change (get (Some (ended 0 r) :: repeat None k) 0) with (Some (ended 0 r)).
    cbn [ended r_parent r_end r_conf r]. eexists. split; [reflexivity|]. split; [|reflexivity].
    cbn [verdict]. unfold decide, c, cfgr. cbn [max_memory max_real_time max_cpu_time].
    match goal with |- context [cpu <? ?z] => change z with 0; destruct (Z.ltb_spec cpu 0); [lia|] end.
    destruct (cpu =? UNLIMITED); reflexivity.
Qed.

(** ** Samples *)
Lemma family_life_case : exists w, history [] family_life = Some w /\ all_waited_for 0 family_life w /\
  spent [0%nat] family_life = 1305000 /\ largest [0%nat] family_life = 900 /\ family 0 family_life = [2; 1; 0]%nat /\
  exists res, reported w 0 (mkTv 0 0) (mkTv 0 0) = Some (Val res) /\
    cpu_time res = 1305 /\ memory res = 921600 /\ verdict res = CPU_TIME_LIMIT_EXCEEDED.
Proof.
  eexists. split; [vm_compute; reflexivity|]. split; [split|].
  - assert (F : forallb (fun e => negb (lets_go (family 0 family_life) e)) family_life = true) by (vm_compute; reflexivity).
    rewrite forallb_forall in F. intros e Q. apply negb_true_iff, F, Q.
  - change (family 0 family_life) with [2; 1; 0]%nat. intros q [<-|[<-|[<-|[]]]] N; try reflexivity. contradiction.
  - split; [reflexivity|]. split; [reflexivity|]. split; [reflexivity|]. eexists. split; [vm_compute; reflexivity|].
    split; [reflexivity|]. split; reflexivity.
Qed.
Lemma full_case : exists w r, history [] (firstn 10 family_life) = Some w /\ size (family 0 (firstn 10 family_life)) w = 3 /\
  exclusive 1000 (family 0 (firstn 10 family_life)) w /\ get w 1 = Some r /\ at_stage Prog r = true /\ step w (Forks 1 3 "fork") = None.
Proof.
  eexists. eexists. split; [vm_compute; reflexivity|]. split; [reflexivity|]. split.
  - intros p r G _. apply get_lt in G. cbn in G. change (family 0 (firstn 10 family_life)) with [2; 1; 0]%nat.
    destruct p as [|[|[|p]]]; [right; right; left | right; left | left | exfalso; lia]; reflexivity.
  - split; [reflexivity|]. split; vm_compute; reflexivity.
Qed.
Lemma shared_case : exists w r, history [] (firstn 7 crowded) = Some w /\ get w 2 = Some r /\ at_stage Limited r = true /\
  count 1000 (put w 2 None) = 2 /\ max_process_number (r_conf r) = 1.
Proof. eexists. eexists. split; [vm_compute; reflexivity|]. split; [reflexivity|]. repeat split; reflexivity. Qed.

(** ** Processes left behind *)
Lemma left_behind : forall rule call k, In call (can_fork_by rule) ->
  exists c evs w res, history [] evs = Some w /\ In (Starts 0 c 0) evs /\ seccomp_rule_name c = rule /\
    uid c = 1000 /\ In (JudgeReaps 0) evs /\ size (family 0 evs) w = Z.of_nat k /\
    (forall p r, get w p = Some r -> at_stage Prog r = true) /\
    exists v, step v (JudgeReaps 0) = Some w /\ reported v 0 (mkTv 0 0) (mkTv 0 0) = Some (Val res) /\ verdict res = SUCCESS.
Proof.
  intros rule call k Fc. set (c := cfgr rule 1000 1000000 UNLIMITED 1000). apply (fork_call_spec c) in Fc.
  set (r := mkProcess c Prog 1000 None false Judge None 0 0 0 0 0).
  set (o := mkProcess c Prog 1000 None false Init None 0 0 0 0 0).
  assert (St : history [] (sets_up 0 c 0) = Some [Some r]) by reflexivity.
  assert (H1 : history [] (sets_up 0 c 0 ++ at_once call 0 k 0) = Some (Some r :: repeat (Some (copy_of 0 r)) k)).
  { rewrite history_app, St. exact (at_once_history call 0 r eq_refl Fc (or_introl eq_refl) ltac:(lia) eq_refl k 0). }
  assert (Ad : map (adopted 0) (repeat (Some (copy_of 0 r)) k) = repeat (Some o) k).
  { clear H1. induction k as [|k IH]; [reflexivity|]. cbn [repeat map]. rewrite IH. reflexivity. }
  assert (S1 : step (Some r :: repeat (Some (copy_of 0 r)) k) (Ends 0 0) = Some (Some (ended 0 r) :: repeat (Some o) k)).
  { cbn [step]. change (get (Some r :: repeat (Some (copy_of 0 r)) k) 0) with (Some r). cbn [alive r r_end guard]. cbn [map]. rewrite Ad. reflexivity. }
  assert (S2 : step (Some (ended 0 r) :: repeat (Some o) k) (JudgeReaps 0) = Some (None :: repeat (Some o) k)) by reflexivity.
  exists c, ((sets_up 0 c 0 ++ at_once call 0 k 0) ++ [Ends 0 0; JudgeReaps 0]), (None :: repeat (Some o) k).
  eexists. split; [|split; [|split; [|split; [|split; [|split; [|split]]]]]].
  - rewrite history_app, H1. cbn [history]. rewrite S1. exact (f_equal (fun a => match a with Some w => Some w | None => None end) S2).
  - left. reflexivity.
  - reflexivity.
  - reflexivity.
  - apply in_or_app. right. right. left. reflexivity.
  - unfold family. rewrite !fold_left_app. change (fold_left grow (sets_up 0 c 0) [0%nat]) with [0%nat].
    rewrite at_once_fam_list by reflexivity. cbn [fold_left grow]. unfold size. rewrite filter_app. cbn [filter].
    change (exists_in (None :: repeat (Some o) k) 0) with false. cbv iota. rewrite app_nil_r.
    assert (E : forall l, (forall q, In q l -> exists_in (None :: repeat (Some o) k) q = true) ->
      filter (exists_in (None :: repeat (Some o) k)) l = l).
    { induction l as [|a l IH]; intro A; [reflexivity|]. cbn [filter]. rewrite (A a (or_introl eq_refl)).
      f_equal. apply IH. intros q Q. apply A. right. exact Q. }
    rewrite E; [rewrite rev_length, seq_length; reflexivity|].
    intros q Q. apply in_rev, in_seq in Q. destruct q as [|q]; [lia|]. unfold exists_in, get. cbn [nth_error].
    rewrite nth_error_repeat by lia. reflexivity.
  - intros p s G. unfold get in G. destruct p as [|p]; [discriminate|]. cbn [nth_error] in G.
    destruct (nth_error (repeat (Some o) k) p) as [a|] eqn:Na; [|discriminate]. apply nth_error_In, repeat_spec in Na.
    subst a. injection G as <-. reflexivity.
  - exists (Some (ended 0 r) :: repeat (Some o) k). split; [exact S2|]. split; [reflexivity|]. reflexivity.
Qed.
